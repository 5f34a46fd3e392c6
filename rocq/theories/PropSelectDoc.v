(** * C76: the selection ranges of a well-formed document *)
From Verif Require Import SelectionRange Base Stream Scanner BaseFacts ScannerFacts ScanStep ScanProps ScanPanic
  ScanShape ScanResume Tree Parser ParseSpec ParseInv ParseOrder PropParse TextDoc PropDoc SelAttr TokenLoop PropTree PropSelection
  Folding PropFolding Render RenderFacts PropRender Lexing TokenRun PropTokens PropFoldDoc.
From Coq Require Import ZifyBool ZifyNat ZifyN.

(** ** Specification *)
(** The cursor is at [c]; ranges are pairs of offsets, inner ranges first. *)
Definition at_cursor (c a b : nat) : list (nat * nat) := if (a <=? c) && (c <=? b) then [(a, b)] else [].
(** The value of an attribute whose name ends at [o]: where it begins and ends. *)
Definition value_from (o : nat) (v : hvalue) : nat :=
  match v with NoValue => o | Bare gap _ | Quoted gap _ _ => o + length gap + 1 end.
Definition value_to (o : nat) (v : hvalue) : nat := o + length (render_value v).
(** Inside an attribute that begins, with its white space, at [o]: a value in
    quotes without them, the value, the name. *)
Definition attr_inner (c o : nat) (a : hattr) : list (nat * nat) :=
  let s := o + length (ha_space a) in
  let e := s + length (ha_name a) in
  match ha_value a with
  | NoValue => []
  | Bare _ _ => at_cursor c (value_from e (ha_value a)) (value_to e (ha_value a))
  | Quoted _ _ _ => at_cursor c (value_from e (ha_value a) + 1) (value_to e (ha_value a) - 1) ++
                    at_cursor c (value_from e (ha_value a)) (value_to e (ha_value a))
  end ++ at_cursor c s e.
(** The whole attribute, if it has a value. *)
Definition attr_outer (c o : nat) (a : hattr) : list (nat * nat) :=
  let s := o + length (ha_space a) in
  let e := s + length (ha_name a) in
  match ha_value a with
  | NoValue => []
  | _ => at_cursor c s (value_to e (ha_value a))
  end.
Fixpoint inners (c o : nat) (l : list hattr) : list (nat * nat) :=
  match l with [] => [] | a :: r => inners c (o + length (render_attr a)) r ++ attr_inner c o a end.
Fixpoint outers (c o : nat) (l : list hattr) : list (nat * nat) :=
  match l with [] => [] | a :: r => attr_outer c o a ++ outers c (o + length (render_attr a)) r end.
Definition attrs_sel (c o : nat) (l : list hattr) : list (nat * nat) := inners c o l ++ outers c o l.

(** An element with an end tag, from [o] to [e], its content from [a] to [b]: what
    is offered when the cursor is in it and in no element inside of it: in the start
    tag the attribute, the tag without brackets and the element; in the content
    the content and the element; in the end tag the tag without brackets and the
    element. *)
Definition own_sel (c o a b e : nat) (name : str) (attrs : list hattr) : list (nat * nat) :=
  if (o <? c) && (c <? a) then attrs_sel c (o + 1 + length name) attrs ++ [(o + 1, a - 1); (o, e)]
  else if (a <=? c) && (c <=? b) then [(a, b); (o, e)]
  else if b + 2 <=? c then [(b + 2, e - 1); (o, e)]
  else [(o, e)].
(** An element around the one with the cursor. *)
Definition around (o a b e : nat) : list (nat * nat) := if a <? b then [(a, b); (o, e)] else [(o, e)].
(** An element without end tag: the attribute and the tag without brackets. *)
Definition single_sel (c o : nat) (x name : str) (attrs : list hattr) : list (nat * nat) :=
  attrs_sel c (o + 1 + length name) attrs ++
  [(o + 1, o + length x - (if beq (skipn (length x - 2) x) (bs "/>") then 2 else 1))].
Section Sel.
Variable f : nat -> html -> option (list (nat * nat)).
Fixpoint sel_with (o : nat) (l : list html) : option (list (nat * nat)) :=
  match l with
  | [] => None
  | h :: r => match f o h with Some x => Some x | None => sel_with (o + length (render h)) r end
  end.
End Sel.
(** The ranges of a document written from [o], if the cursor is in an element of it. *)
Fixpoint sel (c o : nat) (h : html) : option (list (nat * nat)) :=
  let e := o + length (render h) in
  if (o <=? c) && (c <? e) then
    match h with
    | HText _ | HComment _ | HDoctype _ _ => None
    | HElement name attrs pad body close pad2 =>
        let a := o + length (start_tag name attrs pad (bs ">")) in
        let b := a + length (render_all body) in
        Some (match sel_with (sel c) a body with
              | Some r => r ++ around o a b e
              | None => own_sel c o a b e name attrs
              end)
    | HRaw name attrs pad s pad2 =>
        let a := o + length (start_tag name attrs pad (bs ">")) in
        Some (own_sel c o a (a + length s) e name attrs)
    | HVoid name attrs _ | HSelf name attrs _ => Some (single_sel c o (render h) name attrs)
    end
  else None.
(** Around all of them: from the first element to the last. *)
Definition whole (l : list html) : list (nat * nat) :=
  match nodes_all 0 l with [] => [] | r :: _ => [(n_start r, n_end (last (nodes_all 0 l) r))] end.
Definition selection (c : nat) (l : list html) : list (nat * nat) :=
  match sel_with (sel c) 0 l with Some r => r | None => [] end ++ whole l.
(** Of equal neighbours one. *)
Fixpoint merged (l : list (nat * nat)) : list (nat * nat) :=
  match l with
  | [] => []
  | a :: r => match r with b :: _ => if pair_eqb a b then merged r else a :: merged r | [] => [a] end
  end.
Definition shown_selection (d : textdoc) (p : position) (l : list (nat * nat)) : list range :=
  match merged l with [] => [mkRange p p] | m => map (fun r => range_at d (fst r) (snd r)) m end.

(** ** Proof: the attributes *)
Section A.
Variables (U : unicode) (x : str) (cs : bool) (rel : nat).
Hypothesis HX : Utf8 x.
Definition tattr (k : token) (s : astate) : res astate :=
  let o := tk_off k in let e := tk_end k in
  match tk_type k with
  | AttributeName =>
      if rel <? o then Ok (mkA (as_result s) false (as_start s))
      else Ok (mkA (if rel <=? e then (o, e) :: as_result s else as_result s) true o)
  | AttributeValue =>
      if as_inside s then
        let v := tk_text x k in
        if rel <? o then Ok (mkA (as_result s ++ [(as_start s, e)]) true (as_start s))
        else if rel <=? e then
          let r := (o, e) :: as_result s in
          do _ <- usub (length v) 1;
          do r' <- (if (first_is DQUOTE v && last_is DQUOTE v) || (first_is SQUOTE v && last_is SQUOTE v)
                    then do e1 <- usub e 1;
                         Ok (if (o + 1 <=? rel) && (rel <=? e1) then (o + 1, e1) :: r else r)
                    else Ok r);
          Ok (mkA (r' ++ [(as_start s, e)]) true (as_start s))
        else Ok s
      else Ok s
  | _ => Ok s
  end.
Lemma attr_step_tok sc s : tok_bd x (token_of sc) -> SelectionRange.attr_step x rel sc s = tattr (token_of sc) s.
Proof.
  intros H. unfold SelectionRange.attr_step, tattr, tk_text, token_text. unfold tok_bd in H.
  cbn [token_of tk_type tk_off tk_end] in *. destruct (tok sc); auto.
  destruct (as_inside s); auto. unfold text_token in H. destruct H as (A & B & C); [tauto|].
  rewrite (slice_bd _ _ _) by (auto; lia). reflexivity.
Qed.
Fixpoint aloop (fuel : nat) (sc : scanner) (s : astate) : res astate :=
  match fuel with
  | 0 => OutOfFuel
  | Datatypes.S fuel' =>
      do sc' <- scan U x false cs sc;
      if token_eqb (tok sc') EOS then Ok s
      else do s' <- SelectionRange.attr_step x rel sc' s; aloop fuel' sc' s'
  end.
Lemma attr_aloop fuel : forall sc s, attr_loop U x cs rel fuel sc s = do s' <- aloop fuel sc s; Ok (as_result s').
Proof.
  induction fuel as [|fuel IH]; intros sc s; auto. cbn [attr_loop aloop]. destruct (scan U x false cs sc); cbn [bind]; auto.
  destruct (token_eqb _ _); auto. destruct (SelectionRange.attr_step x rel a s); cbn [bind]; auto.
Qed.
Definition afold (o : nat) (l : list piece) (s : astate) : res astate :=
  foldm astate tattr (map bare_token (place o (filter written l))) s.
Lemma foldm_seen ks : forall s, foldm astate tattr ks s = foldm astate tattr (map bare_token (map seen ks)) s.
Proof.
  induction ks as [|k ks IH]; intros s; auto. cbn [map foldm].
  change (tattr (bare_token (seen k)) s) with (tattr k s). destruct (tattr k s); cbn [bind]; auto.
Qed.
Lemma foldm_app l m : forall s, foldm astate tattr (l ++ m) s = do s1 <- foldm astate tattr l s; foldm astate tattr m s1.
Proof. induction l as [|k l IH]; intros s; auto. cbn [app foldm]. destruct (tattr k s); cbn [bind]; auto. Qed.
Lemma afold_app o l m s : afold o (l ++ m) s = do s1 <- afold o l s; afold (o + length (joined l)) m s1.
Proof. unfold afold. rewrite filter_app, place_app, map_app, foldm_app, joined_written. reflexivity. Qed.
Lemma afold_cons o k w l s : afold o ((k, w) :: l) s = do s1 <- afold o [(k, w)] s; afold (o + length w) l s1.
Proof.
  change ((k, w) :: l) with ([(k, w)] ++ l). rewrite afold_app. cbn [joined flat_map snd]. rewrite app_nil_r. reflexivity.
Qed.
Lemma afold_one o k w s : w <> [] -> afold o [(k, w)] s = tattr (mkToken k o (o + length w) None WithinContent) s.
Proof.
  intros N. unfold afold. cbn [filter]. unfold written. cbn [snd]. destruct w; [tauto|]. cbn [map place foldm].
  match goal with |- bind ?a _ = ?b => change b with a; destruct a; reflexivity end.
Qed.
Definition still (k : token_type) : Prop := k <> AttributeName /\ k <> AttributeValue.
Lemma afold_still l s : Forall (fun p => still (fst p)) l -> forall o, afold o l s = Ok s.
Proof.
  intros H. revert s. induction H as [|[k w] l (A & B) _ IH]; intros s o; [reflexivity|].
  rewrite afold_cons.
  assert (E : afold o [(k, w)] s = Ok s).
  { destruct w as [|b w]; [reflexivity|]. rewrite afold_one by discriminate. unfold tattr. cbn [tk_type fst] in *.
    destruct k; try reflexivity; tauto. }
  rewrite E. cbn [bind]. apply IH.
Qed.
Ltac still := unfold still; repeat split; discriminate.
Lemma text_here k o a s : skipn o x = a ++ s -> tk_text x (mkToken k o (o + length a) None WithinContent) = a.
Proof.
  intros H. unfold tk_text, sub. cbn [tk_off tk_end]. rewrite H. replace (o + length a - o) with (length a) by lia.
  rewrite firstn_app, firstn_all, Nat.sub_diag. apply app_nil_r.
Qed.
Lemma skip_on o a s : skipn o x = a ++ s -> skipn (o + length a) x = s.
Proof. intros H. rewrite Nat.add_comm, <- skipn_skipn, H, skipn_app, skipn_all, Nat.sub_diag. reflexivity. Qed.

Lemma no_cursor c a b : c < a \/ b < c -> at_cursor c a b = [].
Proof. intros H. unfold at_cursor. replace (_ && _) with false by lia. auto. Qed.
Lemma yes_cursor c a b : a <= c <= b -> at_cursor c a b = [(a, b)].
Proof. intros H. unfold at_cursor. replace (_ && _) with true by lia. auto. Qed.
Lemma attr_sel_step a o r s : good_attr a -> skipn o x = render_attr a ++ r ->
  exists s', afold o (lex_attr a) s = Ok s' /\ as_result s' = attr_inner rel o a ++ as_result s ++ attr_outer rel o a.
Proof.
  intros (G1 & G2 & G3 & G4 & G5) E. unfold lex_attr. cbn [app]. unfold render_attr in E. rewrite <- !app_assoc in E.
  assert (E1 := skip_on _ _ _ E). assert (E2 := skip_on _ _ _ E1).
  rewrite afold_cons, afold_still by (repeat constructor; still). cbn [bind].
  rewrite afold_cons, afold_one by auto. unfold tattr at 1. cbn [tk_type tk_off tk_end].
  unfold attr_inner, attr_outer. cbn zeta.
  set (u := o + length (ha_space a)) in *. set (e := u + length (ha_name a)) in *.
  set (s1 := if rel <? u then mkA (as_result s) false (as_start s) else
             mkA (if rel <=? e then (u, e) :: as_result s else as_result s) true u).
  assert (S1 : (if rel <? u then Ok (mkA (as_result s) false (as_start s)) else
             Ok (mkA (if rel <=? e then (u, e) :: as_result s else as_result s) true u)) = Ok s1)
    by (unfold s1; destruct (rel <? u); auto).
  rewrite S1. cbn [bind]. clear S1.
  assert (R1 : as_result s1 = at_cursor rel u e ++ as_result s).
  { unfold s1, at_cursor. destruct (rel <? u) eqn:C1; cbn [as_result].
    - replace (u <=? rel) with false by lia. auto.
    - replace (u <=? rel) with true by lia. cbn [andb]. destruct (rel <=? e); auto. }
  assert (VAL : forall gap raw ins, lex_value (ha_value a) = [(Whitespace, gap); (DelimiterAssign, bs "="); (AttributeValue, raw)] ->
    render_value (ha_value a) = gap ++ bs "=" ++ raw -> raw <> [] ->
    let v1 := e + length gap + 1 in let v2 := v1 + length raw in
    ins = (if ((first_is DQUOTE raw && last_is DQUOTE raw) || (first_is SQUOTE raw && last_is SQUOTE raw))
           then at_cursor rel (v1 + 1) (v2 - 1) else []) ->
    exists s', afold e (lex_value (ha_value a)) s1 = Ok s' /\
      as_result s' = ((ins ++ at_cursor rel v1 v2) ++ at_cursor rel u e) ++ as_result s ++ at_cursor rel u v2).
  { intros gap raw ins LX RV NE v1 v2 INS. rewrite LX. rewrite RV, <- !app_assoc in E2.
    assert (E3 := skip_on _ _ _ E2). assert (E4 := skip_on _ _ _ E3).
    rewrite afold_cons, afold_still by (repeat constructor; still). cbn [bind].
    rewrite afold_cons, afold_still by (repeat constructor; still). cbn [bind].
    change (length (bs "=")) with 1 in *. fold v1 in E4 |- *.
    rewrite afold_one by auto. unfold tattr. cbn [tk_type tk_off tk_end]. rewrite (text_here AttributeValue _ _ _ E4). fold v2.
    assert (L : 1 <= length raw) by (destruct raw; [tauto|cbn; lia]).
    assert (LU : u <= e < v1) by (unfold e, v1; lia).
    destruct (rel <? u) eqn:C1.
    { assert (I : as_inside s1 = false) by (unfold s1; reflexivity). rewrite I. eexists. split; [reflexivity|].
      rewrite R1, (no_cursor rel v1), (no_cursor rel u v2), (no_cursor rel u e) by lia.
      replace ins with (@nil (nat * nat)). { cbn. rewrite app_nil_r. auto. }
      rewrite INS. destruct (_ || _); auto. rewrite no_cursor by lia. auto. }
    assert (I : as_inside s1 = true /\ as_start s1 = u) by (unfold s1; auto). destruct I as [-> ->].
    destruct (rel <? v1) eqn:C2.
    { eexists. split; [reflexivity|]. cbn [as_result]. rewrite R1, (no_cursor rel v1), (yes_cursor rel u v2) by lia.
      replace ins with (@nil (nat * nat)). { cbn. rewrite <- app_assoc. auto. }
      rewrite INS. destruct (_ || _); auto. rewrite no_cursor by lia. auto. }
    rewrite (no_cursor rel u e) in * by lia. cbn [app] in R1. rewrite app_nil_r.
    destruct (rel <=? v2) eqn:C3.
    2:{ eexists. split; [reflexivity|]. rewrite R1, (no_cursor rel v1), (no_cursor rel u v2) by lia.
        replace ins with (@nil (nat * nat)). { cbn. rewrite app_nil_r. auto. }
        rewrite INS. destruct (_ || _); auto. rewrite no_cursor by lia. auto. }
    unfold usub. replace (1 <=? length raw) with true by lia. cbn [bind]. rewrite (yes_cursor rel v1), (yes_cursor rel u v2) by lia.
    rewrite R1. destruct (_ || _).
    - replace (1 <=? v2) with true by lia. cbn [bind]. eexists. split; [reflexivity|]. cbn [as_result]. rewrite INS. unfold at_cursor.
      destruct (_ && _); reflexivity.
    - cbn [bind]. eexists. split; [reflexivity|]. cbn [as_result]. rewrite INS. reflexivity. }
  destruct (ha_value a) as [|gap v|gap q v] eqn:HV.
  - cbn [lex_value]. exists s1. split; [reflexivity|]. rewrite R1. cbn [app]. rewrite app_nil_r. auto.
  - destruct G5 as (_ & N & M). destruct (VAL gap v []) as (s' & S' & R'); auto.
    { destruct (bare_first _ M N) as (b & r' & -> & _ & Q1 & Q2). cbn [first_is].
      replace (N.eqb b DQUOTE) with false by (symmetry; apply N.eqb_neq; auto).
      replace (N.eqb b SQUOTE) with false by (symmetry; apply N.eqb_neq; auto). auto. }
    exists s'. split; auto. rewrite R'. cbn [value_from app]. unfold value_to. cbn [render_value]. rewrite !app_length.
    change (length (bs "=")) with 1. rewrite !Nat.add_assoc. auto.
  - destruct G5 as (_ & Q & UV & _). destruct (VAL gap (q :: v ++ [q]) (at_cursor rel (e + length gap + 1 + 1) (e + length gap + 1 + length (q :: v ++ [q]) - 1))) as (s' & S' & R'); auto.
    { discriminate. }
    { unfold last_is. cbn [rev]. rewrite rev_app_distr. cbn [rev app first_is]. unfold DQUOTE, SQUOTE.
      destruct Q as [->| ->]; cbn; auto. }
    exists s'. split; auto. rewrite R'. cbn [value_from]. unfold value_to. cbn [render_value].
    change ([q] ++ v ++ [q]) with (q :: v ++ [q]). rewrite (app_length gap), (app_length (bs "=")).
    change (length (bs "=")) with 1. rewrite !Nat.add_assoc. auto.
Qed.
Lemma attrs_sel_steps l : Forall good_attr l -> forall o r s, skipn o x = render_attrs l ++ r ->
  exists s', afold o (flat_map lex_attr l) s = Ok s' /\ as_result s' = inners rel o l ++ as_result s ++ outers rel o l.
Proof.
  induction 1 as [|a l Ga _ IH]; intros o r s E.
  - exists s. split; [reflexivity|]. cbn. rewrite app_nil_r. auto.
  - cbn [flat_map render_attrs] in *. change (flat_map render_attr l) with (render_attrs l) in E. rewrite <- app_assoc in E.
    rewrite afold_app. destruct (attr_sel_step a o _ s Ga E) as (s1 & -> & R1). cbn [bind].
    replace (joined (lex_attr a)) with (render_attr a).
    2:{ pose proof (joined_attrs [a]) as J. cbn [flat_map render_attrs] in J. rewrite !app_nil_r in J. auto. }
    destruct (IH _ _ s1 (skip_on _ _ _ E)) as (s2 & -> & R2). exists s2. split; auto. rewrite R2, R1. cbn [inners outers].
    rewrite !app_assoc. auto.
Qed.
Lemma behind_inner o a : rel < o -> attr_inner rel o a = [] /\ attr_outer rel o a = [].
Proof.
  intros L. unfold attr_inner, attr_outer, value_to, value_from. destruct (ha_value a); cbn zeta; rewrite !no_cursor by lia; auto.
Qed.
Lemma behind l : forall o, rel < o -> inners rel o l = [] /\ outers rel o l = [].
Proof.
  induction l as [|a l IH]; intros o L; auto. cbn [inners outers]. destruct (behind_inner o a L) as [-> ->].
  destruct (IH (o + length (render_attr a))) as [-> ->]; [lia|]. auto.
Qed.
Lemma start_sel name attrs pad k stop o r s : skipn o x = start_tag name attrs pad stop ++ r -> good_attrs attrs -> still k ->
  exists s', afold o (lex_start name attrs pad (k, stop)) s = Ok s' /\
    as_result s' = inners rel (o + 1 + length name) attrs ++ as_result s ++ outers rel (o + 1 + length name) attrs.
Proof.
  intros E [G _] K. unfold lex_start. unfold start_tag in E. rewrite <- !app_assoc in E.
  assert (E1 := skip_on _ _ _ E). assert (E2 := skip_on _ _ _ E1). change (length (bs "<")) with 1 in *.
  cbn [app]. rewrite afold_cons, afold_still by (repeat constructor; still). cbn [bind].
  rewrite afold_cons, afold_still by (repeat constructor; still). cbn [bind]. change (length (bs "<")) with 1.
  rewrite afold_app. destruct (attrs_sel_steps attrs G _ _ s E2) as (s' & -> & R). cbn [bind].
  rewrite afold_still by (constructor; [still|constructor; [exact K|constructor]]). eauto.
Qed.
Variable void : list str.
Lemma still_end name pad : Forall (fun p => still (fst p)) (lex_end name pad).
Proof. unfold lex_end. repeat (constructor; [still|]). constructor. Qed.
(** What stands behind the cursor changes nothing. *)
Definition item_behind (h : html) : Prop := forall o r s, skipn o x = render h ++ r -> rel < o ->
  exists s', afold o (lex h) s = Ok s' /\ as_result s' = as_result s.
Lemma list_behind l : Forall item_behind l -> forall o r s, skipn o x = render_all l ++ r -> rel < o ->
  exists s', afold o (flat_map lex l) s = Ok s' /\ as_result s' = as_result s.
Proof.
  induction 1 as [|h l H _ IH]; intros o r s E L.
  - exists s. auto.
  - cbn [flat_map render_all] in *. change (flat_map render l) with (render_all l) in E. rewrite <- app_assoc in E.
    rewrite afold_app, joined_lex. destruct (H o _ s E L) as (s1 & -> & R1). cbn [bind].
    destruct (IH (o + length (render h)) r s1) as (s2 & -> & R2); [eapply skip_on; eauto|lia|]. exists s2. split; congruence.
Qed.
Lemma tag_behind name attrs pad k stop o r s : skipn o x = start_tag name attrs pad stop ++ r -> good_attrs attrs -> still k ->
  rel < o -> exists s', afold o (lex_start name attrs pad (k, stop)) s = Ok s' /\ as_result s' = as_result s.
Proof.
  intros E G K L. destruct (start_sel _ _ _ _ _ _ _ s E G K) as (s' & -> & R). exists s'. split; auto. rewrite R.
  destruct (behind attrs (o + 1 + length name)) as [-> ->]; [lia|]. rewrite app_nil_r. auto.
Qed.
Lemma behind_all : forall h, good U cs void h -> item_behind h.
Proof.
  fix IH 1. intros h G. destruct h as [w|w|w y|name attrs pad body close pad2|name attrs pad y pad2|name attrs pad|name attrs pad];
    intros o r s E L; cbn [lex] in *.
  - rewrite afold_still by (repeat constructor; still). eauto.
  - rewrite afold_still by (repeat constructor; still). eauto.
  - rewrite afold_still by (repeat constructor; still). eauto.
  - inversion G as [| | |? ? ? ? ? ? G1 G2 G3 G4 G5 G6 G7 G8 G9 G10| | | |]; subst.
    cbn [render] in *. change (flat_map render body) with (render_all body) in *.
    rewrite <- !app_assoc in E. assert (SK : still StartTagClose) by still.
    rewrite afold_app, joined_start. destruct (tag_behind _ _ _ _ _ _ _ s E G4 SK L) as (s1 & -> & R1). cbn [bind].
    rewrite afold_app.
    assert (IB : Forall item_behind body).
    { clear - IH G6. revert body G6. fix IHl 1. intros body G6. destruct body as [|h l]; [constructor|].
      constructor; [apply IH; inversion G6; auto|apply IHl; inversion G6; auto]. }
    destruct (list_behind body IB (o + length (start_tag name attrs pad (bs ">"))) (end_tag close pad2 ++ r) s1) as (s2 & -> & R2);
      [eapply skip_on; eauto|lia|].
    cbn [bind]. rewrite afold_still by apply still_end. exists s2. split; congruence.
  - assert (GA : good_attrs attrs) by (inversion G; subst; auto). cbn [render] in *. rewrite <- !app_assoc in E.
    assert (SK : still StartTagClose) by still.
    rewrite afold_app, joined_start. destruct (tag_behind _ _ _ _ _ _ _ s E GA SK L) as (s1 & -> & R1). cbn [bind].
    rewrite afold_still; [eauto|]. constructor; [|apply still_end]. destruct (beq name (bs "script")); still.
  - inversion G as [| | | | | |? ? ? G1 G2 G3 G4 G5|]; subst. assert (SK : still StartTagClose) by still.
    cbn [render] in *. eapply tag_behind; eauto.
  - inversion G as [| | | | | | |? ? ? G1 G2 G3 G4]; subst. assert (SK : still StartTagSelfClose) by still.
    cbn [render] in *. eapply tag_behind; eauto.
Qed.
(** Reading the text of an element with the cursor in its start tag. *)
Lemma element_sel h name attrs pad stop rest : good U cs void h -> x = render h ->
  render h = start_tag name attrs pad stop ++ rest -> h_name h = name -> rel < length (start_tag name attrs pad stop) ->
  match h with
  | HElement n a p _ _ _ | HRaw n a p _ _ => n = name /\ a = attrs /\ p = pad /\ stop = bs ">"
  | HVoid n a p => n = name /\ a = attrs /\ p = pad /\ stop = bs ">"
  | HSelf n a p => n = name /\ a = attrs /\ p = pad /\ stop = bs "/>"
  | _ => False
  end ->
  attr_loop U x cs rel (scan_fuel x) (scanner_new 0 WithinContent) (mkA [] false 0) = Ok (attrs_sel rel (1 + length name) attrs).
Proof.
  intros G EX ER HN L SH. rewrite attr_aloop.
  destruct (C73_tokens U cs void false [h]) as (ks & z & T & _ & SE & _).
  { split; [constructor; auto|]. destruct h; exact I. }
  cbn [render_all flat_map] in T. rewrite app_nil_r, <- EX in T.
  assert (EQ : forall fuel sc s, aloop fuel sc s =
    match fuel with
    | 0 => OutOfFuel
    | Datatypes.S fuel' =>
        do sc' <- scan U x false cs sc;
        if token_eqb (tok sc') EOS then Ok s
        else do s' <- SelectionRange.attr_step x rel sc' s; aloop fuel' sc' s'
    end) by (intros [|fuel] sc' s'; reflexivity).
  assert (GS : Good x (scanner_new 0 WithinContent)) by (intros _; left; apply Bd_0; auto).
  rewrite (loop_tokens U x cs HX _ _ tattr attr_step_tok _ EQ _ _ _ _ _ (or_introl GS) T).
  rewrite foldm_seen, SE. change (lex_all [h]) with (filter written (flat_map lex [h])). cbn [flat_map]. rewrite app_nil_r.
  change (foldm astate tattr (map bare_token (place 0 (filter written (lex h)))) (mkA [] false 0)) with (afold 0 (lex h) (mkA [] false 0)).
  assert (E0 : skipn 0 x = start_tag name attrs pad stop ++ rest) by (rewrite EX; exact ER).
  assert (DONE : forall k more, still k -> good_attrs attrs -> lex h = lex_start name attrs pad (k, stop) ++ more ->
    (forall s, exists s', afold (length (start_tag name attrs pad stop)) more s = Ok s' /\ as_result s' = as_result s) ->
    (do s' <- afold 0 (lex h) (mkA [] false 0); Ok (as_result s')) = Ok (attrs_sel rel (1 + length name) attrs)).
  { intros k more K GA LX MORE. rewrite LX, afold_app, joined_start.
    destruct (start_sel name attrs pad k stop 0 rest (mkA [] false 0) E0 GA K) as (s1 & -> & R1). cbn [bind].
    destruct (MORE s1) as (s2 & M & R2). rewrite Nat.add_0_l, M. cbn [bind]. rewrite R2, R1. reflexivity. }
  assert (E1 := skip_on _ _ _ E0). rewrite Nat.add_0_l in E1.
  destruct h as [w|w|w y|n' a' p' body close pad2|n' a' p' y pad2|n' a' p'|n' a' p']; try contradiction; destruct SH as (-> & -> & -> & ->).
  - inversion G as [| | |? ? ? ? ? ? G1 G2 G3 G4 G5 G6 G7 G8 G9 G10| | | |].
    apply (DONE StartTagClose (flat_map lex body ++ lex_end close pad2)); [still|exact G4|reflexivity|]. intros s. rewrite afold_app.
    cbn [render] in ER. apply app_inv_head in ER. subst rest. change (flat_map render body) with (render_all body) in E1.
    assert (IB : Forall item_behind body) by (eapply Forall_impl; [|exact G6]; apply behind_all).
    destruct (list_behind body IB _ _ s E1 L) as (s2 & -> & R2). cbn [bind]. rewrite afold_still by apply still_end. eauto.
  - assert (GA : good_attrs attrs) by (inversion G; subst; auto).
    eapply DONE; [|exact GA|reflexivity|]; [still|]. intros s. rewrite afold_still; [eauto|].
    constructor; [|apply still_end]. destruct (beq name (bs "script")); still.
  - inversion G as [| | | | | |? ? ? G1 G2 G3 G4 G5|].
    eapply DONE; [|exact G4|cbn [lex]; rewrite app_nil_r; reflexivity|]; [still|]. intros s. exists s. auto.
  - inversion G as [| | | | | | |? ? ? G1 G2 G3 G4].
    eapply DONE; [|exact G2|cbn [lex]; rewrite app_nil_r; reflexivity|]; [still|]. intros s. exists s. auto.
Qed.
End A.

(** ** Proof: the elements *)
Definition shift (n : nat) (r : nat * nat) : nat * nat := (fst r + n, snd r + n).
Lemma cursor_shift n c a b : at_cursor (n + c) (n + a) (n + b) = map (shift n) (at_cursor c a b).
Proof.
  unfold at_cursor, shift. replace ((n + a <=? n + c) && (n + c <=? n + b)) with ((a <=? c) && (c <=? b)) by lia.
  destruct (_ && _); auto. cbn [map fst snd]. rewrite (Nat.add_comm a), (Nat.add_comm b). auto.
Qed.
Lemma attr_shift n c o a : attr_inner (n + c) (n + o) a = map (shift n) (attr_inner c o a) /\
  attr_outer (n + c) (n + o) a = map (shift n) (attr_outer c o a).
Proof.
  unfold attr_inner, attr_outer, value_from, value_to. destruct (ha_value a) as [|gap v|gap q v]; cbn zeta; rewrite ?map_app, <- ?cursor_shift.
  - rewrite !Nat.add_assoc. auto.
  - rewrite !Nat.add_assoc. auto.
  - assert (L : 1 <= length (render_value (Quoted gap q v))) by (cbn [render_value]; rewrite !app_length; cbn; lia).
    set (z := length (render_value (Quoted gap q v))) in *.
    replace (n + (o + length (ha_space a) + length (ha_name a) + z - 1)) with (n + o + length (ha_space a) + length (ha_name a) + z - 1) by lia.
    rewrite !Nat.add_assoc. auto.
Qed.
Lemma attrs_shift n c l : forall o, attrs_sel (n + c) (n + o) l = map (shift n) (attrs_sel c o l).
Proof.
  intros o. unfold attrs_sel. rewrite map_app. f_equal; revert o; induction l as [|a l IH]; intros o; auto; cbn [inners outers];
    rewrite map_app, <- Nat.add_assoc, IH; f_equal; apply attr_shift.
Qed.

Section E.
Variables (U : unicode) (d : textdoc) (cs : bool) (void : list str) (c : nat).
Hypothesis HD : textdoc_ok d.
Let t := d_text d.
Definition own (n : node) : res (list (nat * nat)) :=
  match n_ste n, n_ets n with
  | Some ste, None =>
      do k <- usub ste 2;
      do text <- get_content d (range_at d k ste);
      do e <- (if beq text (bs "/>") then usub ste 2 else usub ste 1);
      do al <- get_attribute_level_ranges U d n c cs;
      Ok (al ++ [(n_start n + 1, e)])
  | None, _ => Ok []
  | Some ste, Some ets =>
      if (n_start n <? c) && (c <? ste) then
        do e <- usub ste 1;
        do al <- get_attribute_level_ranges U d n c cs;
        Ok (al ++ [(n_start n + 1, e); (n_start n, n_end n)])
      else if (ste <=? c) && (c <=? ets) then Ok [(ste, ets); (n_start n, n_end n)]
      else if ets + 2 <=? c then
        do e <- usub (n_end n) 1; Ok [(ets + 2, e); (n_start n, n_end n)]
      else Ok [(n_start n, n_end n)]
  end.
Definition finished (n : node) : Prop := n_ets n = None -> n_ste n = Some (n_end n).
Lemma applicable_own p roots n ps : offset_at d p = c -> find_node_at roots c = Ok (Some (n, ps)) -> finished n ->
  get_applicable_ranges U d p roots cs = do al <- own n; Ok (al ++ get_all_parent_tag_ranges ps roots).
Proof.
  intros P F N. unfold get_applicable_ranges, own. rewrite P, F. cbn [bind]. unfold finished in N.
  destruct (n_ste n) as [s|]; [|reflexivity]. destruct (n_ets n) as [e|].
  - destruct ((n_start n <? c) && (c <? s)).
    { destruct (usub s 1); cbn [bind]; auto. destruct (get_attribute_level_ranges U d n c cs); cbn [bind]; auto.
      rewrite <- app_assoc. reflexivity. }
    destruct ((s <=? c) && (c <=? e)); [reflexivity|]. destruct (e + 2 <=? c); [|reflexivity].
    destruct (usub (n_end n) 1); reflexivity.
  - specialize (N eq_refl). apply Some_inj in N. subst s. rewrite Nat.eqb_refl. cbn [negb].
    destruct (usub _ 2) eqn:U2; cbn [bind]; auto. destruct (get_content d _) as [x| |]; cbn [bind]; auto.
    rewrite <- U2. destruct (if beq x _ then _ else _) as [e| |]; cbn [bind]; auto.
    destruct (get_attribute_level_ranges U d n c cs); cbn [bind]; auto. rewrite <- app_assoc. reflexivity.
Qed.

Lemma tag_text h o r : good U cs void h -> at_ t o (render h ++ r) ->
  get_content d (range_at d o (o + length (render h))) = Ok (render h).
Proof.
  intros G A. pose proof (do_utf8 d HD) as HU. assert (UR := render_utf8 U cs void h G).
  assert (A2 := at_adv t HU _ _ _ A UR). unfold get_content. cbn [range_at r_start r_end].
  destruct A as [A1 A3]. destruct A2 as [A2 A4].
  rewrite !(do_inv d HD); try (apply Bd_le; auto); try (apply Bd_boundary; auto).
  apply (at_slice t HU o _ r); auto. split; auto.
Qed.
Lemma levels h name attrs pad stop rest o r n : good U cs void h -> at_ t o (render h ++ r) ->
  render h = start_tag name attrs pad stop ++ rest -> h_name h = name ->
  o <= c < o + length (start_tag name attrs pad stop) ->
  match h with
  | HElement n a p _ _ _ | HRaw n a p _ _ => n = name /\ a = attrs /\ p = pad /\ stop = bs ">"
  | HVoid n a p => n = name /\ a = attrs /\ p = pad /\ stop = bs ">"
  | HSelf n a p => n = name /\ a = attrs /\ p = pad /\ stop = bs "/>"
  | _ => False
  end -> n_start n = o -> n_end n = o + length (render h) ->
  get_attribute_level_ranges U d n c cs = Ok (attrs_sel c (o + 1 + length name) attrs).
Proof.
  intros G A ER HN L SH N1 N2. unfold get_attribute_level_ranges. rewrite N1, N2, (tag_text h o r G A). cbn [bind].
  unfold usub. replace (o <=? c) with true by lia. cbn [bind].
  rewrite (element_sel U (render h) cs (c - o) (render_utf8 U cs void h G) void h name attrs pad stop rest G eq_refl ER HN); auto; [|lia].
  cbn [bind]. f_equal. change (fun p : nat * nat => (fst p + o, snd p + o)) with (shift o). rewrite <- attrs_shift.
  rewrite Nat.add_assoc. f_equal. lia.
Qed.

Definition cov (n : node) : bool := (n_start n <=? c) && (c <? n_end n).
Definition covering (l : list node) : list node := filter cov (flat_map preorder l).
Lemma covering_app l m : covering (l ++ m) = covering l ++ covering m.
Proof. unfold covering. rewrite flat_map_app, filter_app. auto. Qed.
Lemma covering_one n : covering [n] = (if cov n then [n] else []) ++ covering (n_children n).
Proof.
  unfold covering. cbn [flat_map]. rewrite app_nil_r, preorder_eq. cbn [filter]. destruct (cov n); auto.
Qed.
Lemma covering_none h : forall o, c < o \/ o + length (render h) <= c -> covering (nodes_from o h) = [].
Proof.
  revert h. fix IH 1. intros h o H. destruct h as [w|w|w y|name attrs pad body close pad2|name attrs pad y pad2|name attrs pad|name attrs pad];
    cbn [nodes_from]; try reflexivity; cbn [render] in H; rewrite ?app_length in H; rewrite covering_one; unfold cov; cbn [n_start n_end n_children].
  - replace (_ && _) with false by (unfold render_all; lia). cbn [app]. change (flat_map render body) with (render_all body) in H.
    assert (LB : forall l o, c < o \/ o + length (render_all l) <= c -> covering (nodes_with nodes_from o l) = []).
    { clear - IH. fix IHl 1. intros l o H. destruct l as [|h l]; [reflexivity|]. cbn [nodes_with]. rewrite covering_app.
      cbn [render_all flat_map] in H. change (flat_map render l) with (render_all l) in H. rewrite app_length in H.
      rewrite IH by lia. apply IHl. lia. }
    apply LB. lia.
  - replace (_ && _) with false by lia. reflexivity.
  - replace (_ && _) with false by lia. reflexivity.
  - replace (_ && _) with false by lia. reflexivity.
Qed.
Lemma list_none l : forall o, c < o \/ o + length (render_all l) <= c -> covering (nodes_with nodes_from o l) = [].
Proof.
  induction l as [|h l IH]; intros o H; [reflexivity|]. cbn [nodes_with]. rewrite covering_app.
  cbn [render_all flat_map] in H. change (flat_map render l) with (render_all l) in H. rewrite app_length in H.
  rewrite covering_none by lia. apply IH. lia.
Qed.
Definition outcome (n : node) (ps : list node) (rs : list (nat * nat)) : Prop :=
  (exists al, own n = Ok al /\ rs = al ++ flat_map get_node_ranges (rev ps)) \/
  (own n = Panic PSlice /\ n_ets n = None /\ is_boundary t (n_end n - 2) = false /\
   n_end n < offset_at d (position_at d (n_end n - 2))).
Definition meets (nodes : list node) (s : option (list (nat * nat))) : Prop :=
  match s with
  | None => covering nodes = []
  | Some rs => exists ps n, covering nodes = ps ++ [n] /\ finished n /\ outcome n ps rs
  end.
Definition item_sel (h : html) : Prop := forall o r, at_ t o (render h ++ r) -> meets (nodes_from o h) (sel c o h).
Lemma sel_inside h o rs : sel c o h = Some rs -> o <= c < o + length (render h).
Proof. destruct h; cbn [sel]; cbn zeta; destruct (_ && _) eqn:C; try discriminate; intros _; lia. Qed.
Lemma list_sel l : Forall item_sel l -> Forall (good U cs void) l -> forall o r, at_ t o (render_all l ++ r) ->
  meets (nodes_with nodes_from o l) (sel_with (sel c) o l).
Proof.
  pose proof (do_utf8 d HD) as HU.
  induction 1 as [|h l H _ IH]; intros G o r A; [reflexivity|]. inversion G as [|? ? Gh Gl]; subst.
  cbn [nodes_with sel_with render_all flat_map] in *. change (flat_map render l) with (render_all l) in *. rewrite <- app_assoc in A.
  specialize (H o _ A). destruct (sel c o h) as [rs|] eqn:S.
  - apply sel_inside in S. destruct H as (ps & n & C & F & O). exists ps, n. rewrite covering_app, C.
    rewrite list_none by lia. rewrite app_nil_r. auto.
  - cbn [meets] in H. specialize (IH Gl _ _ (at_adv t HU _ _ _ A (render_utf8 U cs void h Gh))). unfold meets. rewrite covering_app, H. exact IH.
Qed.
Lemma single_sel_ok h name attrs pad stop o r cl : good U cs void h -> at_ t o (render h ++ r) -> render h = start_tag name attrs pad stop ->
  h_name h = name -> stop <> [] ->
  match h with HVoid n a p => n = name /\ a = attrs /\ p = pad /\ stop = bs ">"
  | HSelf n a p => n = name /\ a = attrs /\ p = pad /\ stop = bs "/>" | _ => False end ->
  o <= c < o + length (render h) ->
  let e := o + length (render h) in
  let n := mkNode (Some name) o e [] cl (Some e) None (attrs_from (o + 1 + length name) attrs) in
  meets [n] (Some (single_sel c o (render h) name attrs)).
Proof.
  intros G A ER HN NS SH L e n. pose proof (do_utf8 d HD) as HU. assert (UR := render_utf8 U cs void h G).
  exists [], n. split; [rewrite covering_one; unfold cov; cbn [n n_start n_end n_children]; replace (_ && _) with true by lia; reflexivity|].
  split; [intros _; reflexivity|].
  assert (AL : get_attribute_level_ranges U d n c cs = Ok (attrs_sel c (o + 1 + length name) attrs)).
  { apply (levels h name attrs pad stop [] o r); auto.
    - rewrite app_nil_r. auto.
    - rewrite <- ER. auto.
    - destruct h; tauto. }
  assert (L2 : 2 <= length (render h)).
  { rewrite ER. unfold start_tag. rewrite !app_length. cbn [length]. destruct stop; [congruence|cbn; lia]. }
  assert (EQ : sub t (e - 2) e = skipn (length (render h) - 2) (render h)).
  { destruct A as [A _]. unfold sub. replace (e - 2) with (length (render h) - 2 + o) by (unfold e; lia).
    rewrite <- skipn_skipn, A, skipn_app. replace (e - (length (render h) - 2 + o)) with 2 by (unfold e; lia).
    replace (length (render h) - 2 - length (render h)) with 0 by lia. rewrite skipn_O, firstn_app, skipn_length.
    replace (2 - (length (render h) - (length (render h) - 2))) with 0 by lia. rewrite firstn_O, app_nil_r.
    apply firstn_all2. rewrite skipn_length. lia. }
  assert (BE : Bd t e) by (apply (at_adv t HU _ _ _ A UR)). assert (LE := Bd_le _ _ BE).
  unfold outcome, own. cbn [n n_ste n_ets n_start n_end]. fold n. unfold usub. replace (2 <=? e) with true by lia. replace (1 <=? e) with true by lia.
  cbn [bind]. rewrite AL. unfold get_content. cbn [range_at r_start r_end].
  rewrite (do_inv d HD e) by (auto using Bd_boundary). fold t.
  unfold single_sel. fold e. destruct (is_boundary t (e - 2)) eqn:B.
  - left. rewrite (do_inv d HD (e - 2)) by (auto; fold t; lia). fold t.
    rewrite (slice_bd _ _ _) by (auto; try lia; apply boundary_Bd; auto; lia). cbn [bind]. rewrite EQ.
    destruct (beq _ _); cbn [bind]; eexists; (split; [reflexivity|]); cbn [rev flat_map]; rewrite app_nil_r; reflexivity.
  - destruct (do_offset d HD (position_at d (e - 2))) as [O1 O2]. fold t in O1, O2. set (k := offset_at d (position_at d (e - 2))) in *.
    unfold slice. rewrite O2. rewrite (Bd_boundary _ _ BE). replace (e <=? length t) with true by lia. rewrite !andb_true_r.
    destruct (k <=? e) eqn:K; [|right; split; [reflexivity|split; [reflexivity|split; [reflexivity|fold k; lia]]]]. left. cbn [bind].
    assert (N1 : beq (sub t k e) (bs "/>") = false).
    { apply beq_neq. intros E. assert (LL := f_equal (@length _) E). rewrite sub_length in LL by lia. cbn in LL.
      assert (k = e - 2) by lia. congruence. }
    assert (N2 : beq (skipn (length (render h) - 2) (render h)) (bs "/>") = false).
    { rewrite <- EQ. apply beq_neq. intros E. unfold sub in E. replace (e - (e - 2)) with 2 in E by lia.
      assert (BB : Bd t (e - 2)).
      { destruct (skipn (e - 2) t) as [|b l] eqn:SK; [discriminate|]. cbn [firstn] in E. inversion E as [[E1 E2]].
        apply (Bd_at_ascii t (e - 2) b HU); [|subst b; reflexivity].
        rewrite <- (Nat.add_0_r (e - 2)), <- skipn_nth_error, SK. reflexivity. }
      apply Bd_boundary in BB. congruence. }
    unfold sub in N1. rewrite N1, N2. cbn [bind]. eexists. split; [reflexivity|]. cbn [rev flat_map]. rewrite app_nil_r. reflexivity.
Qed.
Lemma own_sel_ok h name attrs pad rest o r n a b e : good U cs void h -> at_ t o (render h ++ r) ->
  render h = start_tag name attrs pad (bs ">") ++ rest -> h_name h = name ->
  match h with HElement n a p _ _ _ | HRaw n a p _ _ => n = name /\ a = attrs /\ p = pad | _ => False end ->
  a = o + length (start_tag name attrs pad (bs ">")) -> e = o + length (render h) -> 
  n_start n = o -> n_end n = e -> n_ste n = Some a -> n_ets n = Some b -> a <= b -> o <= c < e ->
  own n = Ok (own_sel c o a b e name attrs).
Proof.
  intros G A ER HN SH EA EE N1 N2 N3 N4 AB L. unfold own, own_sel. rewrite N1, N2, N3, N4.
  assert (1 <= a) by (subst a; unfold start_tag; rewrite !app_length; change (length (bs "<")) with 1; lia).
  destruct ((o <? c) && (c <? a)) eqn:C1.
  - unfold usub. replace (1 <=? a) with true by lia. cbn [bind].
    rewrite (levels h name attrs pad (bs ">") rest o r n); auto; [lia|destruct h; tauto|congruence].
  - destruct ((a <=? c) && (c <=? b)); auto. destruct (b + 2 <=? c); auto. unfold usub. replace (1 <=? e) with true by lia. reflexivity.
Qed.
Lemma sel_all : forall h, good U cs void h -> item_sel h.
Proof.
  pose proof (do_utf8 d HD) as HU.
  fix IH 1. intros h G. destruct h as [w|w|w y|name attrs pad body close pad2|name attrs pad y pad2|name attrs pad|name attrs pad];
    intros o r A.
  - cbn [sel nodes_from]. destruct (_ && _); reflexivity.
  - cbn [sel nodes_from]. destruct (_ && _); reflexivity.
  - cbn [sel nodes_from]. destruct (_ && _); reflexivity.
  - cbn [sel]. cbn zeta. destruct ((o <=? c) && (c <? o + length (render (HElement name attrs pad body close pad2)))) eqn:C.
    2:{ cbn [meets]. apply covering_none. lia. }
    inversion G as [| | |? ? ? ? ? ? G1 G2 G3 G4 G5 G6 G7 G8 G9 G10| | | |]; subst.
    assert (IB : Forall item_sel body).
    { clear - IH G6. revert body G6. fix IHl 1. intros body G6. destruct body as [|h l]; [constructor|].
      constructor; [apply IH; inversion G6; auto|apply IHl; inversion G6; auto]. }
    set (a := o + length (start_tag name attrs pad (bs ">"))) in *. set (b := a + length (render_all body)) in *.
    set (e := o + length (render (HElement name attrs pad body close pad2))) in *.
    assert (EE : e = b + length (end_tag close pad2)).
    { unfold e, b, a. cbn [render]. change (flat_map render body) with (render_all body). rewrite !app_length. lia. }
    assert (AB : at_ t a (render_all body ++ end_tag close pad2 ++ r)).
    { apply (at_adv t HU); [|eapply start_utf8; eauto; try (apply ascii_utf8; reflexivity)]. 
      cbn [render] in A. change (flat_map render body) with (render_all body) in A. rewrite <- !app_assoc in A. exact A. }
    pose proof (list_sel body IB G6 a _ AB) as LS. cbn [nodes_from]. fold a b. rewrite <- EE.
    set (n := mkNode (Some name) o e (nodes_with nodes_from a body) true (Some a) (Some b) (attrs_from (o + 1 + length name) attrs)).
    assert (CN : covering [n] = n :: covering (nodes_with nodes_from a body)).
    { rewrite covering_one. unfold cov. cbn [n n_start n_end]. rewrite C. reflexivity. }
    destruct (sel_with (sel c) a body) as [rs|].
    + destruct LS as (ps & m & C1 & F & O). exists (n :: ps), m. rewrite CN, C1. split; auto. split; auto.
      destruct O as [(al & O1 & ->)|O]; [left|right; auto]. exists al. split; auto. cbn [rev]. rewrite flat_map_app. cbn [flat_map].
      rewrite app_nil_r, app_assoc. f_equal.
    + cbn [meets] in LS. exists [], n. rewrite CN, LS. split; auto. split; [discriminate|]. left.
      exists (own_sel c o a b e name attrs). split; [|cbn; rewrite app_nil_r; auto].
      eapply (own_sel_ok (HElement name attrs pad body close pad2) name attrs pad); try reflexivity; try exact A; auto; try (unfold b; lia); lia.
  - cbn [sel]. cbn zeta. destruct ((o <=? c) && (c <? o + length (render (HRaw name attrs pad y pad2)))) eqn:C.
    2:{ cbn [meets]. apply covering_none. lia. }
    set (a := o + length (start_tag name attrs pad (bs ">"))) in *. set (b := a + length y) in *.
    set (e := o + length (render (HRaw name attrs pad y pad2))) in *.
    assert (EE : e = b + length (end_tag name pad2)) by (unfold e, b, a; cbn [render]; rewrite !app_length; lia).
    cbn [nodes_from]. fold a b. rewrite <- EE.
    set (n := mkNode (Some name) o e [] true (Some a) (Some b) (attrs_from (o + 1 + length name) attrs)).
    exists [], n. split.
    { rewrite covering_one. unfold cov. cbn [n n_start n_end]. rewrite C. reflexivity. }
    split; [discriminate|]. left.
    exists (own_sel c o a b e name attrs). split; [|cbn; rewrite app_nil_r; auto].
    eapply (own_sel_ok (HRaw name attrs pad y pad2) name attrs pad); try reflexivity; try exact A; auto; try (unfold b; lia); lia.
  - cbn [sel]. cbn zeta. destruct ((o <=? c) && (c <? o + length (render (HVoid name attrs pad)))) eqn:C.
    2:{ cbn [meets]. apply covering_none. lia. }
    cbn [nodes_from]. eapply (single_sel_ok (HVoid name attrs pad) name attrs pad (bs ">")); try exact A; auto; try discriminate; lia.
  - cbn [sel]. cbn zeta. destruct ((o <=? c) && (c <? o + length (render (HSelf name attrs pad)))) eqn:C.
    2:{ cbn [meets]. apply covering_none. lia. }
    cbn [nodes_from]. eapply (single_sel_ok (HSelf name attrs pad) name attrs pad (bs "/>")); try exact A; auto; try discriminate; lia.
Qed.
End E.
Lemma merged_dd l : merged l = dd l.
Proof. reflexivity. Qed.

(** ** C76 *)
(** The selection ranges at a cursor of a well-formed document: what is written at
    the cursor, from the inside out. The only other outcome is a panic, inside of a
    void element with a character beyond ASCII right before its '>', and only if the
    document's positions jump there. *)
Theorem C76_selection : forall U d cs void l p, textdoc_ok d -> d_text d = render_all l -> good_doc U cs void l ->
  parse U (d_text d) cs void = Ok (nodes_all 0 l) /\
  (get_selection_range U d p (nodes_all 0 l) cs = Ok (shown_selection d p (selection (offset_at d p) l)) \/
   get_selection_range U d p (nodes_all 0 l) cs = Panic PSlice /\
   exists n, In n (doc_nodes (nodes_all 0 l)) /\ n_start n <= offset_at d p < n_end n /\ n_ets n = None /\
     is_boundary (d_text d) (n_end n - 2) = false /\ n_end n < offset_at d (position_at d (n_end n - 2))).
Proof.
  intros U d cs void l p HD E G. pose proof (do_utf8 d HD) as HU.
  assert (P : parse U (d_text d) cs void = Ok (nodes_all 0 l)) by (rewrite E; apply C21_round_trip; auto).
  split; auto. set (c := offset_at d p).
  assert (A : at_ (d_text d) 0 (render_all l ++ [])) by (rewrite app_nil_r; split; [auto|apply Bd_0; auto]).
  destruct G as [G _].
  assert (IS : Forall (item_sel U d cs c) l) by (eapply Forall_impl; [|exact G]; intros h Gh; eapply sel_all; eauto).
  pose proof (list_sel U d cs void c HD l IS G 0 [] A) as M.
  destruct (C23_find_node_at U (d_text d) cs void (nodes_all 0 l) c HU P) as (r & F & SPEC).
  change (fun m : node => (n_start m <=? c) && (c <? n_end m)) with (cov c) in SPEC.
  unfold get_selection_range, shown_selection, selection. rewrite merged_dd.
  destruct (sel_with (sel c) 0 l) as [rs|]; cbn [meets] in M.
  - destruct M as (ps & n & C & FN & O). unfold covering in C. fold (nodes_all 0 l) in C.
    destruct r as [[n' ps']|].
    2:{ exfalso. assert (I : In n (filter (cov c) (flat_map preorder (nodes_all 0 l)))) by (rewrite C; apply in_or_app; right; left; auto).
        apply filter_In in I as [I1 I2]. apply (SPEC n); auto. unfold cov in I2. lia. }
    destruct SPEC as (_ & OB & FI & _). unfold doc_nodes in FI. rewrite C in FI. apply app_inj_tail in FI as [<- <-].
    rewrite (applicable_own U d cs c p (nodes_all 0 l) n ps eq_refl F FN).
    destruct O as [(al & -> & ->)|(-> & O2 & O3 & O4)].
    + left. cbn [bind]. rewrite chain_dd. unfold whole, get_all_parent_tag_ranges. rewrite <- app_assoc. reflexivity.
    + right. cbn [bind]. split; auto. exists n. split; [|auto].
      assert (I : In n (filter (cov c) (flat_map preorder (nodes_all 0 l)))) by (rewrite C; apply in_or_app; right; left; auto).
      apply filter_In in I as [I1 _]. exact I1.
  - destruct r as [[n ps]|].
    { exfalso. destruct SPEC as (_ & _ & FI & _). unfold covering in M. fold (nodes_all 0 l) in M. unfold doc_nodes in FI.
      rewrite M in FI. destruct ps; discriminate. }
    left. unfold get_applicable_ranges. fold c. rewrite F. cbn [bind]. rewrite chain_dd. reflexivity.
Qed.
Print Assumptions C76_selection.

(** Positions in lines and UTF-16 columns do not: the ranges are always given. *)
Lemma off_walk_le cs : forall o p acc, off_walk cs (pos_walk cs o p) p acc <= acc + o.
Proof.
  induction cs as [|c r IH]; intros o p acc; cbn [off_walk pos_walk]; [lia|].
  destruct (o <? length (encode1 c)) eqn:L.
  - destruct (pos_ltb p p) eqn:P; [|lia]. apply pos_ltb_lt, pos_lt_irrefl in P. contradiction.
  - destruct (pos_ltb _ _); [|lia]. rewrite IH. lia.
Qed.
Theorem C76_utf16 : forall U cs void l p, good_doc U cs void l ->
  let d := utf16_doc (render_all l) in
  parse U (d_text d) cs void = Ok (nodes_all 0 l) /\
  get_selection_range U d p (nodes_all 0 l) cs = Ok (shown_selection d p (selection (offset_at d p) l)).
Proof.
  intros U cs void l p G d. assert (HD : textdoc_ok d) by (apply C27_contract; eapply good_utf8; eauto).
  destruct (C76_selection U d cs void l p HD eq_refl G) as (P & [S|(_ & n & _ & _ & _ & _ & J)]); [auto|].
  exfalso. unfold d in J. cbn [utf16_doc offset_at position_at] in J.
  pose proof (off_walk_le (decode (render_all l)) (n_end n - 2) (mkPos 0 0) 0). lia.
Qed.
Print Assumptions C76_utf16.

(** ** Examples *)
Definition sel_demo (o : nat) : list (nat * nat) := merged (selection o demo).
(** In an attribute value, in white space and an attribute name, in text, in a void
    element, in an end tag, in a script. *)
Example C76_demo : good_doc demo_unicode false html5_void demo /\
  sel_demo 26 = [(25, 28); (24, 29); (21, 29); (16, 37); (15, 108); (15, 167)] /\
  sel_demo 30 = [(16, 37); (15, 108); (15, 167)] /\
  sel_demo 31 = [(31, 37); (16, 37); (15, 108); (15, 167)] /\
  sel_demo 40 = [(38, 101); (15, 108); (15, 167)] /\
  sel_demo 44 = [(43, 46); (38, 101); (15, 108); (15, 167)] /\
  sel_demo 105 = [(103, 107); (15, 108); (15, 167)] /\
  sel_demo 133 = [(122, 143); (108, 152); (15, 167)].
Proof. split; [exact demo_good|]. vm_compute. repeat split. Qed.
