(** * C74: the folding ranges of a well-formed document *)
From Verif Require Import Base BaseFacts Stream Scanner ScannerFacts ScanStep ScanProps ScanPanic
  Tree Parser ParseSpec PropParse TextDoc PropDoc Folding PropFolding Render RenderFacts Lexing TokenRun PropTokens.
From Coq Require Import ZifyBool ZifyNat ZifyN.

(** ** Specification *)
Section Spec.
Variables (U : unicode) (d : textdoc).
Definition row (o : nat) : nat := line (position_at d o).
(** An element whose name begins at [a] and which ends at [b] folds from the line
    of its name to the line before its end, if that is more than one line. *)
Definition element_span (a b : nat) : list frange :=
  if row a + 1 <? row b then [mkF (row a) (row b - 1) None] else [].
(** A comment folds from the line its text begins on to the line it ends on. *)
Definition comment_span (a b : nat) : list frange :=
  if row a <? row b then [mkF (row a) (row b) (Some KComment)] else [].
(** A region folds from the line of its first marker to the line of its last. *)
Definition region_span (a b : nat) : list frange :=
  if row a <? row b then [mkF (row a) (row b) (Some KRegion)] else [].
(** Comments that begin and end a region. *)
Definition opens (h : html) : bool := match h with HComment s => region_start U s | _ => false end.
Definition ends (h : html) : bool := match h with HComment s => negb (region_start U s) && region_end U s | _ => false end.
(** The spans of a document written from offset [o]: those inside an element
    before the one of the element. [opened] are the places of the regions begun. *)
Section Spans.
Variable f : nat -> html -> list frange.
Fixpoint spans_with (opened : list nat) (o : nat) (l : list html) : list frange :=
  match l with
  | [] => []
  | h :: r =>
      let o' := o + length (render h) in
      if opens h then spans_with (o + 4 :: opened) o' r
      else if ends h then
        match opened with
        | a :: opened => region_span a (o + 4) ++ spans_with opened o' r
        | [] => spans_with [] o' r
        end
      else f o h ++ spans_with opened o' r
  end.
End Spans.
Fixpoint spans (o : nat) (h : html) : list frange :=
  match h with
  | HText _ | HDoctype _ _ => []
  | HComment s => match s with [] => [] | _ => comment_span (o + 4) (o + length (render h)) end
  | HElement name attrs pad body _ _ =>
      spans_with spans [] (o + length (start_tag name attrs pad (bs ">"))) body ++
      element_span (o + 1) (o + length (render h))
  | HRaw _ _ _ _ _ | HVoid _ _ _ | HSelf _ _ _ => element_span (o + 1) (o + length (render h))
  end.
Definition spans_all (o : nat) (l : list html) : list frange := spans_with spans [] o l.
(** An element or a region whose range would begin on the line where the last reported
    range begins is passed over. *)
Definition again (r : frange) (prev : option nat) : bool :=
  match f_kind r, prev with Some KComment, _ | _, None => false | _, Some p => p =? f_start r end.
Fixpoint reported (prev : option nat) (l : list frange) : list frange :=
  match l with
  | [] => []
  | r :: l =>
      if again r prev
      then reported prev l
      else r :: reported (Some (f_start r)) l
  end.
(** Each end of a region has its start among the siblings before it. *)
Fixpoint paired (n : nat) (l : list html) : Prop :=
  match l with
  | [] => True
  | h :: r =>
      if opens h then paired (S n) r
      else if ends h then match n with 0 => False | S n => paired n r end
      else paired n r
  end.
(** Regions are paired; the two names of an element are written alike. *)
Inductive plain : html -> Prop :=
| P_text s : plain (HText s)
| P_comment s : plain (HComment s)
| P_doctype w s : plain (HDoctype w s)
| P_element name attrs pad body pad2 : Forall plain body -> paired 0 body -> plain (HElement name attrs pad body name pad2)
| P_raw name attrs pad s pad2 : plain (HRaw name attrs pad s pad2)
| P_void name attrs pad : plain (HVoid name attrs pad)
| P_self name attrs pad : plain (HSelf name attrs pad).
End Spec.

(** ** Proof *)
Fixpoint prev_after (prev : option nat) (l : list frange) : option nat :=
  match l with
  | [] => prev
  | r :: l =>
      if again r prev
      then prev_after prev l
      else prev_after (Some (f_start r)) l
  end.
Lemma reported_app l m : forall prev, reported prev (l ++ m) = reported prev l ++ reported (prev_after prev l) m.
Proof. induction l as [|r l IH]; intros prev; auto. cbn [app reported prev_after]. destruct (again r prev); cbn [app]; rewrite IH; auto. Qed.
Lemma prev_after_app l m : forall prev, prev_after prev (l ++ m) = prev_after (prev_after prev l) m.
Proof. induction l as [|r l IH]; intros prev; auto. cbn [app prev_after]. destruct (again r prev); rewrite IH; auto. Qed.

Definition bare_token (x : token_type * nat * nat) : token :=
  mkToken (fst (fst x)) (snd (fst x)) (snd x) None WithinContent.

Section Fold.
Variables (U : unicode) (d : textdoc) (cs : bool) (void : list str).
Let t := d_text d.
Notation step := (tstep U d void).
Notation row := (row d).
Notation spans := (spans U d).
Notation spans_with := (spans_with U d).

Definition folds (o : nat) (l : list piece) (s : fstate) : fstate :=
  fold_left step (map bare_token (place o (filter written l))) s.
Lemma folds_tokens ks s : fold_left step ks s = fold_left step (map bare_token (map seen ks)) s.
Proof.
  revert s. induction ks as [|k ks IH]; intros s; auto. cbn [map fold_left]. rewrite <- IH. f_equal.
Qed.
Lemma folds_app o l m s : folds o (l ++ m) s = folds (o + length (joined l)) m (folds o l s).
Proof. unfold folds. rewrite filter_app, place_app, map_app, fold_left_app, joined_written. reflexivity. Qed.
Lemma folds_cons o k x l s : folds o ((k, x) :: l) s = folds (o + length x) l (folds o [(k, x)] s).
Proof.
  change ((k, x) :: l) with ([(k, x)] ++ l). rewrite folds_app. cbn [joined flat_map snd]. rewrite app_nil_r. reflexivity.
Qed.
Lemma folds_one o k x s : x <> [] -> folds o [(k, x)] s = step s (mkToken k o (o + length x) None WithinContent).
Proof. intros N. unfold folds. cbn [filter]. unfold written. cbn [snd]. destruct x; [tauto|]. reflexivity. Qed.
Definition idle (k : token_type) : Prop :=
  k <> StartTag /\ k <> EndTag /\ k <> StartTagClose /\ k <> EndTagClose /\ k <> StartTagSelfClose /\ k <> Comment.
Lemma folds_idle l s : Forall (fun p => idle (fst p)) l -> forall o, folds o l s = s.
Proof.
  intros H. revert s. induction H as [|[k x] l (A & B & C & D & E & F) _ IH]; intros s o; [reflexivity|].
  rewrite folds_cons, IH. destruct x as [|b x]; [reflexivity|]. rewrite folds_one by discriminate.
  unfold tstep. cbn [tk_type]. cbn [fst] in *. destruct k; try reflexivity; tauto.
Qed.
Ltac idle := unfold idle; repeat split; discriminate.
Lemma attrs_idle l : Forall (fun p => idle (fst p)) (flat_map lex_attr l).
Proof.
  induction l as [|a l IH]; [constructor|]. cbn [flat_map]. apply Forall_app. split; auto.
  unfold lex_attr. apply Forall_app. split; [repeat constructor; idle|].
  destruct (ha_value a); repeat constructor; idle.
Qed.

Lemma here o a s : skipn o t = a ++ s -> tk_text t (mkToken StartTag o (o + length a) None WithinContent) = a.
Proof.
  intros H. unfold tk_text, sub. cbn [tk_off tk_end]. rewrite H. replace (o + length a - o) with (length a) by lia.
  rewrite firstn_app, firstn_all, Nat.sub_diag. apply app_nil_r.
Qed.
Lemma skip_more o a s : skipn o t = a ++ s -> skipn (o + length a) t = s.
Proof. intros H. rewrite Nat.add_comm, <- skipn_skipn, H, skipn_app, skipn_all, Nat.sub_diag. reflexivity. Qed.

(** A start tag up to its end. *)
Lemma folds_start o name attrs pad k stop r s : skipn o t = start_tag name attrs pad stop ++ r -> name <> [] ->
  folds o (lex_start name attrs pad (k, stop)) s =
  folds (o + length (bs "<" ++ name ++ render_attrs attrs ++ pad)) [(k, stop)]
    (mkFS (f_ranges s) ((row (o + 1), name) :: f_stack s) (Some name) (f_prev s)).
Proof.
  intros H N. unfold lex_start. rewrite folds_app. rewrite folds_cons.
  rewrite (folds_idle [(StartTagOpen, bs "<")]) by (repeat constructor; idle).
  rewrite (folds_one _ StartTag) by auto. unfold tstep at 1. cbn [tk_type tk_off].
  assert (H1 : skipn (o + length (bs "<")) t = name ++ render_attrs attrs ++ pad ++ stop ++ r).
  { unfold start_tag in H. rewrite <- !app_assoc in H. apply skip_more in H. exact H. }
  fold t. rewrite (here _ _ _ H1). change (length (bs "<")) with 1.
  rewrite folds_app. rewrite (folds_idle (flat_map lex_attr attrs)) by apply attrs_idle.
  rewrite folds_cons, (folds_idle [(Whitespace, pad)]) by (repeat constructor; idle).
  rewrite joined_attrs. cbn [joined flat_map snd]. unfold line_at, PropFoldDoc.row. f_equal.
  rewrite !app_length. cbn [length bs app]. lia.
Qed.
(** The token that ends an element whose entry is on top. *)
Definition closed_by (k : token_type) (name : str) : Prop :=
  k = EndTagClose \/ k = StartTagSelfClose \/ (k = StartTagClose /\ is_void_element name void = true).
Definition plus (s : fstate) (l : list frange) (s' : fstate) : Prop :=
  f_ranges s' = f_ranges s ++ reported (f_prev s) l /\ f_stack s' = f_stack s /\ f_prev s' = prev_after (f_prev s) l.
Lemma plus_trans s l s1 m s2 : plus s l s1 -> plus s1 m s2 -> plus s (l ++ m) s2.
Proof.
  intros (A & B & C) (A' & B' & C'). unfold plus. rewrite A', A, B', B, C', C, reported_app, prev_after_app, app_assoc. auto.
Qed.
Lemma plus_nil s s' : f_ranges s' = f_ranges s -> f_stack s' = f_stack s -> f_prev s' = f_prev s -> plus s [] s'.
Proof. intros A B C. unfold plus. cbn. rewrite app_nil_r. auto. Qed.
Lemma folds_close o a k stop name s s0 : stop <> [] -> closed_by k name ->
  find_entry (fun x => beq x name) (f_stack s) = Some (row a, f_stack s0) -> f_last s = Some name ->
  exists s', folds o [(k, stop)] s = s' /\ f_ranges s' = f_ranges s ++ reported (f_prev s) (element_span d a (o + length stop)) /\
    f_stack s' = f_stack s0 /\ f_prev s' = prev_after (f_prev s) (element_span d a (o + length stop)).
Proof.
  intros N K S L. eexists. split; [reflexivity|]. rewrite folds_one by auto.
  assert (E : step s (mkToken k o (o + length stop) None WithinContent) =
    if (row a + 1 <? row (o + length stop)) && differs (f_prev s) (row a)
    then mkFS (f_ranges s ++ [mkF (row a) (row (o + length stop) - 1) None]) (f_stack s0) (f_last s) (Some (row a))
    else mkFS (f_ranges s) (f_stack s0) (f_last s) (f_prev s)).
  { unfold tstep. cbn [tk_type tk_end].
    assert (CN : closes_now void (mkToken k o (o + length stop) None WithinContent) (f_last s) = true).
    { unfold closes_now. cbn [tk_type]. rewrite L. destruct K as [->|[->|[-> ->]]]; reflexivity. }
    rewrite CN, L, S. destruct K as [->|[->|[-> _]]]; reflexivity. }
  rewrite E. unfold element_span. destruct (row a + 1 <? row (o + length stop)) eqn:R; cbn [andb].
  - unfold differs. cbn [reported prev_after]. unfold again. cbn [f_kind f_start]. destruct (f_prev s) as [p|] eqn:P.
    + destruct (p =? row a) eqn:Q; cbn [negb f_ranges f_stack f_prev reported]; rewrite ?app_nil_r; auto.
    + cbn [f_ranges f_stack f_prev reported]. auto.
  - cbn [f_ranges f_stack f_prev reported prev_after]. rewrite app_nil_r. auto.
Qed.
Lemma folds_end o a name pad r s s0 : skipn o t = end_tag name pad ++ r -> name <> [] ->
  find_entry (fun x => beq x name) (f_stack s) = Some (row a, f_stack s0) ->
  let s' := folds o (lex_end name pad) s in
  f_ranges s' = f_ranges s ++ reported (f_prev s) (element_span d a (o + length (end_tag name pad))) /\
  f_stack s' = f_stack s0 /\ f_prev s' = prev_after (f_prev s) (element_span d a (o + length (end_tag name pad))).
Proof.
  intros H N S. cbn zeta.
  assert (H1 : skipn (o + length (bs "</")) t = name ++ pad ++ bs ">" ++ r).
  { unfold end_tag in H. rewrite <- !app_assoc in H. apply skip_more in H. exact H. }
  assert (EQ : folds o (lex_end name pad) s = folds (o + length (bs "</") + length name + length pad) [(EndTagClose, bs ">")]
    (mkFS (f_ranges s) (f_stack s) (Some name) (f_prev s))).
  { unfold lex_end. rewrite folds_cons.
    rewrite (folds_idle [(EndTagOpen, bs "</")]) by (repeat constructor; idle).
    rewrite folds_cons, (folds_one _ EndTag) by auto.
    rewrite folds_cons, (folds_idle [(Whitespace, pad)]) by (repeat constructor; idle).
    unfold tstep. cbn [tk_type].
    assert (TX : tk_text t (mkToken EndTag (o + length (bs "</")) (o + length (bs "</") + length name) None WithinContent) = name)
      by (apply (here _ _ _ H1)).
    fold t. rewrite TX. reflexivity. }
  rewrite EQ. clear EQ.
  destruct (folds_close (o + length (bs "</") + length name + length pad) a EndTagClose (bs ">") name
    (mkFS (f_ranges s) (f_stack s) (Some name) (f_prev s)) s0) as (s2 & E2 & H2); auto; try discriminate.
  { left. auto. }
  subst s2. cbn [f_ranges f_prev] in H2.
  replace (o + length (end_tag name pad)) with (o + length (bs "</") + length name + length pad + length (bs ">")); auto.
  unfold end_tag. rewrite !app_length. lia.
Qed.

Definition grown (s : fstate) (l : list frange) (s' : fstate) : Prop :=
  f_ranges s' = f_ranges s ++ reported (f_prev s) l /\ f_prev s' = prev_after (f_prev s) l.
Lemma grown_trans s l s1 m s2 : grown s l s1 -> grown s1 m s2 -> grown s (l ++ m) s2.
Proof. intros (A & C) (A' & C'). unfold grown. rewrite A', A, C', C, reported_app, prev_after_app, app_assoc. auto. Qed.
Lemma grown_nil s s' : f_ranges s' = f_ranges s -> f_prev s' = f_prev s -> grown s [] s'.
Proof. intros A B. unfold grown. cbn. rewrite app_nil_r. auto. Qed.
(** A comment. *)
Lemma comment_step o x r s : x <> [] -> skipn o t = render (HComment x) ++ r ->
  folds o (lex (HComment x)) s =
  (if region_start U x then mkFS (f_ranges s) ((row (o + 4), []) :: f_stack s) (f_last s) (f_prev s)
   else if region_end U x then
     match find_entry (fun x => negb (nonempty_str x)) (f_stack s) with
     | None => s
     | Some (l', below) =>
         if (l' <? row (o + 4)) && differs (f_prev s) l'
         then mkFS (f_ranges s ++ [mkF l' (row (o + 4)) (Some KRegion)]) below (f_last s) (Some l')
         else mkFS (f_ranges s) below (f_last s) (f_prev s)
     end
   else if row (o + 4) <? row (o + length (render (HComment x)))
     then mkFS (f_ranges s ++ [mkF (row (o + 4)) (row (o + length (render (HComment x)))) (Some KComment)]) (f_stack s) (f_last s) (Some (row (o + 4)))
     else s).
Proof.
  intros N E. cbn [lex]. rewrite folds_cons.
  rewrite (folds_idle [(StartCommentTag, bs "<!--")]) by (repeat constructor; idle).
  rewrite folds_cons. rewrite (folds_idle [(EndCommentTag, bs "-->")]) by (repeat constructor; idle).
  rewrite folds_one by auto. cbn [render] in *.
  assert (E1 : skipn (o + length (bs "<!--")) t = x ++ bs "-->" ++ r).
  { rewrite <- !app_assoc in E. apply skip_more in E. exact E. }
  unfold tstep. cbn [tk_type tk_off tk_end].
  assert (TX : tk_text t (mkToken Comment (o + length (bs "<!--")) (o + length (bs "<!--") + length x) None WithinContent) = x)
    by (apply (here _ _ _ E1)).
  fold t. rewrite TX.
  replace (o + length (bs "<!--" ++ x ++ bs "-->")) with (o + length (bs "<!--") + length x + 3)
    by (rewrite !app_length; cbn [length bs]; lia).
  change (length (bs "<!--")) with 4. unfold PropFoldDoc.row, line_at. reflexivity.
Qed.
Lemma region_start_nil : region_start U [] = false.
Proof. reflexivity. Qed.
Lemma region_end_nil : region_end U [] = false.
Proof. reflexivity. Qed.

Definition regions (opened : list nat) : list (nat * str) := map (fun a => (row a, [])) opened.
Lemma find_under name opened x base : name <> [] ->
  find_entry (fun y => beq y name) (regions opened ++ (x, name) :: base) = Some (x, base).
Proof.
  intros N. induction opened as [|a l IH]; cbn [regions map app find_entry].
  - rewrite beq_refl. reflexivity.
  - destruct (beq [] name) eqn:B; [apply beq_eq in B; congruence|]. exact IH.
Qed.
Definition item_folds (h : html) : Prop := opens U h = false -> ends U h = false ->
  forall o r s, skipn o t = render h ++ r -> plus s (spans o h) (folds o (lex h) s).
Lemma list_folds l : Forall item_folds l -> forall opened base o r s, skipn o t = render_all l ++ r ->
  paired U (length opened) l -> f_stack s = regions opened ++ base ->
  exists opened', grown s (spans_with spans opened o l) (folds o (flat_map lex l) s) /\
    f_stack (folds o (flat_map lex l) s) = regions opened' ++ base.
Proof.
  induction 1 as [|h l H _ IH]; intros opened base o r s E P S; [exists opened; split; auto; apply grown_nil; auto|].
  cbn [flat_map render_all] in *. change (flat_map render l) with (render_all l) in E. rewrite <- app_assoc in E.
  rewrite folds_app, joined_lex. cbn [PropFoldDoc.spans_with paired] in *. assert (E1 := skip_more _ _ _ E).
  destruct (opens U h) eqn:OP; [|destruct (ends U h) eqn:EN].
  - destruct h as [x|x|w x|name attrs pad body close pad2|name attrs pad x pad2|name attrs pad|name attrs pad]; try discriminate.
    cbn [opens] in OP. assert (NX : x <> []) by (intros ->; rewrite region_start_nil in OP; discriminate).
    rewrite (comment_step o x _ s NX E), OP.
    destruct (IH (o + 4 :: opened) base _ r (mkFS (f_ranges s) ((row (o + 4), []) :: f_stack s) (f_last s) (f_prev s)) E1 P) as (op & G & ST).
    { cbn [f_stack regions map app]. rewrite S. reflexivity. }
    exists op. split; auto.
  - destruct h as [x|x|w x|name attrs pad body close pad2|name attrs pad x pad2|name attrs pad|name attrs pad]; try discriminate.
    cbn [opens ends] in OP, EN. rewrite OP in EN. cbn [negb andb] in EN.
    assert (NX : x <> []) by (intros ->; rewrite region_end_nil in EN; discriminate).
    rewrite (comment_step o x _ s NX E), OP, EN. destruct opened as [|a opened]; [destruct P|]. cbn [length] in P.
    rewrite S. cbn [regions map app find_entry nonempty_str negb].
    set (s1 := if (row a <? row (o + 4)) && differs (f_prev s) (row a) then _ else _).
    assert (G1 : grown s (region_span d a (o + 4)) s1 /\ f_stack s1 = regions opened ++ base).
    { unfold s1, region_span. destruct (row a <? row (o + 4)); cbn [andb].
      - unfold differs, grown. cbn [reported prev_after]. unfold again. cbn [f_kind f_start]. destruct (f_prev s) as [p|] eqn:P0.
        + destruct (p =? row a); cbn [negb f_ranges f_stack f_prev reported]; rewrite ?app_nil_r; auto.
        + cbn [f_ranges f_stack f_prev reported]. auto.
      - split; [apply grown_nil; auto|auto]. }
    destruct G1 as [G1 S1]. destruct (IH opened base _ r s1 E1 P S1) as (op & G & ST). exists op. split; auto.
    eapply grown_trans; eauto.
  - destruct (H OP EN _ _ s E) as (L1 & L2 & L3). rewrite S in L2.
    destruct (IH opened base _ r _ E1 P L2) as (op & G & ST). exists op. split; auto. eapply grown_trans; [split; eauto|exact G].
Qed.
Lemma void_is name : In name void -> is_void_element name void = true.
Proof. intros I. apply existsb_exists. exists name. split; auto. apply beq_refl. Qed.
Lemma not_void name : ~ In name void -> is_void_element name void = false.
Proof.
  intros I. unfold is_void_element. destruct (existsb (beq name) void) eqn:E; auto.
  apply existsb_exists in E as (x & X & E). apply beq_eq in E. subst x. tauto.
Qed.
Lemma folds_open o name attrs pad r s : skipn o t = start_tag name attrs pad (bs ">") ++ r -> name <> [] -> ~ In name void ->
  folds o (lex_start name attrs pad (StartTagClose, bs ">")) s =
  mkFS (f_ranges s) ((row (o + 1), name) :: f_stack s) (Some name) (f_prev s).
Proof.
  intros H N V. rewrite (folds_start _ _ _ _ _ _ _ _ H N), folds_one by discriminate.
  unfold tstep, closes_now. cbn [tk_type f_last]. rewrite (not_void _ V). reflexivity.
Qed.
Lemma folds_single o name attrs pad k stop r s : skipn o t = start_tag name attrs pad stop ++ r -> name <> [] -> stop <> [] ->
  closed_by k name ->
  plus s (element_span d (o + 1) (o + length (start_tag name attrs pad stop))) (folds o (lex_start name attrs pad (k, stop)) s).
Proof.
  intros H N NS C. rewrite (folds_start _ _ _ _ _ _ _ _ H N).
  destruct (folds_close (o + length (bs "<" ++ name ++ render_attrs attrs ++ pad)) (o + 1) k stop name
    (mkFS (f_ranges s) ((row (o + 1), name) :: f_stack s) (Some name) (f_prev s)) s) as (s2 & E2 & H2); auto.
  { cbn [f_stack find_entry]. rewrite beq_refl. reflexivity. }
  subst s2. cbn [f_ranges f_prev] in H2. unfold plus.
  replace (o + length (start_tag name attrs pad stop)) with (o + length (bs "<" ++ name ++ render_attrs attrs ++ pad) + length stop); auto.
  unfold start_tag. rewrite !app_length. lia.
Qed.

Lemma item_all : forall h, good U cs void h -> plain U h -> item_folds h.
Proof.
  fix IH 1. intros h G P. destruct h as [x|x|w x|name attrs pad body close pad2|name attrs pad x pad2|name attrs pad|name attrs pad];
    intros OP EN o r s E; cbn [PropFoldDoc.spans].
  - cbn [lex]. rewrite folds_idle by (repeat constructor; idle). apply plus_nil; auto.
  - destruct x as [|b x]; [apply plus_nil; auto|]. set (y := b :: x) in *.
    rewrite (comment_step o y r s) by (try discriminate; auto). cbn [opens ends] in OP, EN. rewrite OP in EN. cbn [negb andb] in EN.
    rewrite OP, EN. unfold comment_span.
    destruct (_ <? _); [|apply plus_nil; auto]. unfold plus. cbn [f_ranges f_stack f_prev reported prev_after]. unfold again. cbn [f_kind f_start]. auto.
  - cbn [lex]. rewrite folds_idle by (repeat constructor; idle). apply plus_nil; auto.
  - cbn [lex]. assert (X : close = name /\ Forall (plain U) body /\ paired U 0 body) by (inversion P; auto). destruct X as (-> & PB & PP).
    inversion G as [| | |? ? ? ? ? ? G1 G2 G3 G4 G5 G6 G7 G8 G9 G10| | | |]; subst.
    destruct (good_name_utf8 _ _ G1) as [_ NE]. cbn [render] in *. change (flat_map render body) with (render_all body) in *.
    rewrite <- !app_assoc in E. rewrite folds_app, joined_start, (folds_open _ _ _ _ _ _ E NE G3).
    assert (E1 := skip_more _ _ _ E). assert (E2 := skip_more _ _ _ E1).
    set (s1 := mkFS _ _ _ _). set (a := o + length (start_tag name attrs pad (bs ">"))) in *.
    assert (IB : Forall item_folds body).
    { clear - IH PB G6. revert body PB G6. fix IHl 1. intros body PB G6. destruct body as [|h l]; [constructor|].
      constructor; [apply IH; [inversion G6; auto|inversion PB; auto]|apply IHl; [inversion PB; auto|inversion G6; auto]]. }
    destruct (list_folds body IB [] (f_stack s1) a _ s1 E1 PP eq_refl) as (op & (L1 & L3) & L2). rewrite folds_app.
    assert (JB : joined (flat_map lex body) = render_all body) by (rewrite <- joined_written; apply joined_all).
    rewrite JB.
    destruct (folds_end (a + length (render_all body)) (o + 1) name pad2 r (folds a (flat_map lex body) s1) s E2 NE) as (Q1 & Q2 & Q3).
    { rewrite L2. apply find_under. auto. }
    replace (o + length (start_tag name attrs pad (bs ">") ++ render_all body ++ end_tag name pad2)) with
      (a + length (render_all body) + length (end_tag name pad2)) by (unfold a; rewrite !app_length; lia).
    unfold plus. rewrite Q1, Q2, Q3, L1, L3, reported_app, prev_after_app, app_assoc. auto.
  - assert (GN : name <> [] /\ ~ In name void) by (inversion G; subst; split; auto; discriminate).
    destruct GN as [NE NV]. cbn [render lex] in *. rewrite <- !app_assoc in E.
    rewrite folds_app, joined_start, (folds_open _ _ _ _ _ _ E NE NV).
    assert (E1 := skip_more _ _ _ E). assert (E2 := skip_more _ _ _ E1).
    rewrite folds_app. rewrite (folds_idle [_]).
    2:{ constructor; [|constructor]. destruct (beq name (bs "script")); idle. }
    set (s1 := mkFS _ _ _ _). set (a := o + length (start_tag name attrs pad (bs ">"))) in *.
    cbn [joined flat_map snd]. rewrite app_nil_r.
    destruct (folds_end (a + length x) (o + 1) name pad2 r s1 s E2 NE) as (Q1 & Q2 & Q3).
    { cbn [f_stack s1 find_entry]. rewrite beq_refl. reflexivity. }
    replace (o + length (start_tag name attrs pad (bs ">") ++ x ++ end_tag name pad2)) with
      (a + length x + length (end_tag name pad2)) by (unfold a; rewrite !app_length; lia).
    unfold plus. rewrite Q1, Q2, Q3. auto.
  - inversion G as [| | | | | |? ? ? G1 G2 G3 G4 G5|]; subst. destruct (good_name_utf8 _ _ G1) as [_ NE].
    cbn [render lex] in *. eapply folds_single; eauto; [discriminate|]. right. right. split; auto using void_is.
  - inversion G as [| | | | | | |? ? ? G1 G2 G3 G4]; subst. destruct (good_name_utf8 _ _ G1) as [_ NE].
    cbn [render lex] in *. eapply folds_single; eauto; [discriminate|]. right. left. auto.
Qed.
End Fold.

(** ** C74 *)
(** The folding ranges of a well-formed document are those of its elements and
    comments that span enough lines, inner ones first, except that an element is
    passed over when the range reported last begins on the same line. *)
Theorem C74_folding : forall U d cs void l, textdoc_ok d -> d_text d = render_all l ->
  good_doc U cs void l -> Forall (plain U) l -> paired U 0 l ->
  get_folding_ranges U d None void cs = Ok (reported None (spans_all U d 0 l)).
Proof.
  intros U d cs void l HD E G P PP. rewrite unlimited, (all_ranges_tokens U d cs void HD).
  destruct (C73_tokens U cs void false l G) as (ks & z & T & _ & S & _).
  unfold fold_tokens. rewrite E, T. cbn [bind].
  rewrite folds_tokens, S. change (lex_all l) with (filter written (flat_map lex l)).
  fold (folds U d void 0 (flat_map lex l) fstate0).
  assert (IF : Forall (item_folds U d void) l).
  { destruct G as [G _]. clear - G P. induction G as [|h l Gh _ IH]; [constructor|]. inversion P; subst.
    constructor; auto. eapply item_all; eauto. }
  destruct (list_folds U d void l IF [] [] 0 [] fstate0) as (op & (Q & _) & _); auto.
  { rewrite E, app_nil_r. reflexivity. }
  rewrite Q. reflexivity.
Qed.
Print Assumptions C74_folding.
(** Ranges that begin on different lines are all reported. *)
Theorem C74_all : forall U d cs void l, textdoc_ok d -> d_text d = render_all l ->
  good_doc U cs void l -> Forall (plain U) l -> paired U 0 l -> NoDup (map f_start (spans_all U d 0 l)) ->
  get_folding_ranges U d None void cs = Ok (spans_all U d 0 l).
Proof.
  intros U d cs void l HD E G P PP N. rewrite (C74_folding U d cs void l); auto. f_equal.
  assert (A : forall l prev, NoDup (map f_start l) -> (forall p, prev = Some p -> ~ In p (map f_start l)) -> reported prev l = l).
  { clear. induction l as [|r l IH]; intros prev N F; auto. cbn [reported]. cbn [map] in N, F. inversion N as [|? ? N1 N2]; subst.
    replace (again r prev) with false.
    - f_equal. apply IH; auto. intros p Q. apply Some_inj in Q. subst p. auto.
    - unfold again. destruct prev as [p|]; [|destruct (f_kind r) as [[]|]; auto]. assert (X : p =? f_start r = false); [|destruct (f_kind r) as [[]|]; auto]. apply Nat.eqb_neq. intros ->.
      eapply F; [reflexivity|]. left. auto. }
  apply A; auto. discriminate.
Qed.
Print Assumptions C74_all.

(** ** A document *)
From Verif Require Import PropRender.
Definition nl : str := [10%N].
Definition fdemo : list html :=
  [HElement (bs "ul") [] []
     [HText nl; HElement (bs "li") [] [] [HText (bs "a" ++ nl ++ nl)] (bs "li") [];
      HText nl; HComment (bs "x" ++ nl ++ bs "y"); HVoid (bs "br") [] (nl ++ nl)]
     (bs "ul") nl].
Lemma fdemo_good : good_doc demo_unicode false html5_void fdemo.
Proof.
  assert (NV : forall n, is_void_element n html5_void = false -> ~ In n html5_void).
  { intros n H I. unfold is_void_element in H. rewrite <- not_true_iff_false in H. apply H. apply existsb_exists.
    exists n. split; auto. apply beq_refl. }
  assert (NO : forall m s, find_str m s = None -> ~ occurs m s).
  { intros m s H (a & b & ->). rewrite find_str_none in H. specialize (H (length a) ltac:(rewrite app_length; lia)).
    rewrite skipn_app, skipn_all, Nat.sub_diag in H. cbn [skipn app] in H.
    rewrite (proj2 (is_prefix_spec m (m ++ b))) in H by eauto. discriminate. }
  split; [|cbn; auto]. apply Forall_cons; [|apply Forall_nil].
  apply G_element; try name; try blanks.
  - intros [H|H]; discriminate.
  - apply NV. reflexivity.
  - attrs_tac.
  - apply Forall_cons; [|apply Forall_cons; [|apply Forall_cons; [|apply Forall_cons; [|apply Forall_cons; [|apply Forall_nil]]]]].
    + apply G_text. split; [discriminate|]. split; [apply ascii_utf8; reflexivity|cbn; intuition discriminate].
    + apply G_element; try name; try blanks.
      * intros [H|H]; discriminate.
      * apply NV. reflexivity.
      * attrs_tac.
      * apply Forall_cons; [|apply Forall_nil].
        apply G_text. split; [discriminate|]. split; [apply ascii_utf8; reflexivity|cbn; intuition discriminate].
      * cbn. auto.
      * reflexivity.
    + apply G_text. split; [discriminate|]. split; [apply ascii_utf8; reflexivity|cbn; intuition discriminate].
    + apply G_comment; [apply ascii_utf8; reflexivity|]. apply NO. reflexivity.
    + apply G_void; try name; try blanks; [intros [H|H]; discriminate|cbn; tauto|attrs_tac].
  - cbn. auto.
  - reflexivity.
Qed.
Lemma fdemo_plain : Forall (plain demo_unicode) fdemo /\ paired demo_unicode 0 fdemo.
Proof.
  split; [|exact I]. apply Forall_cons; [|apply Forall_nil]. apply P_element; [|exact I].
  repeat (apply Forall_cons; [|]); try apply Forall_nil; try constructor; try exact I. repeat constructor.
Qed.
Example C74_demo : textdoc_ok (utf16_doc (render_all fdemo)) /\
  map (fun r => (f_start r, f_end r, f_kind r)) (spans_all demo_unicode (utf16_doc (render_all fdemo)) 0 fdemo) =
    [(1, 2, None); (4, 5, Some KComment); (5, 6, None); (0, 7, None)] /\
  get_folding_ranges demo_unicode (utf16_doc (render_all fdemo)) None html5_void false =
    Ok (spans_all demo_unicode (utf16_doc (render_all fdemo)) 0 fdemo).
Proof.
  assert (D : textdoc_ok (utf16_doc (render_all fdemo))) by (apply C27_contract, ascii_utf8; reflexivity).
  split; [exact D|]. split; [vm_compute; reflexivity|].
  apply C74_all; auto; [exact fdemo_good|apply fdemo_plain|apply fdemo_plain|].
  assert (E : map f_start (spans_all demo_unicode (utf16_doc (render_all fdemo)) 0 fdemo) = [1; 4; 5; 0]) by (vm_compute; reflexivity).
  rewrite E. repeat constructor; cbn; intuition discriminate.
Qed.
(** An element whose two names differ in case is not folded. *)
Theorem C74_case_refuted : forall cs,
  get_folding_ranges demo_unicode (utf16_doc (bs "<p>" ++ nl ++ nl ++ nl ++ bs "</p>")) None html5_void cs = Ok [mkF 0 2 None] /\
  get_folding_ranges demo_unicode (utf16_doc (bs "<P>" ++ nl ++ nl ++ nl ++ bs "</p>")) None html5_void cs = Ok [].
Proof. intros []; vm_compute; auto. Qed.
(** Regions: one in another, one left open; an element that begins where the range before it begins. *)
Definition rdemo : list html :=
  [HComment (bs "#region a"); HText nl;
   HElement (bs "p") [] []
     [HComment (bs " #region"); HText nl; HComment (bs "#endregion"); HText nl; HComment (bs "#region b"); HText nl] (bs "p") [];
   HText nl; HComment (bs "endregion")].
Lemma rdemo_good : good_doc demo_unicode false html5_void rdemo.
Proof.
  assert (NO : forall m s, find_str m s = None -> ~ occurs m s).
  { intros m s H (a & b & ->). rewrite find_str_none in H. specialize (H (length a) ltac:(rewrite app_length; lia)).
    rewrite skipn_app, skipn_all, Nat.sub_diag in H. cbn [skipn app] in H.
    rewrite (proj2 (is_prefix_spec m (m ++ b))) in H by eauto. discriminate. }
  assert (T : good demo_unicode false html5_void (HText nl)).
  { apply G_text. split; [discriminate|]. split; [apply ascii_utf8; reflexivity|cbn; intuition discriminate]. }
  split; [|cbn; auto]. repeat (apply Forall_cons; [|]); try apply Forall_nil; auto;
    try (apply G_comment; [apply ascii_utf8; reflexivity|apply NO; reflexivity]).
  apply G_element; try name; try blanks.
  - intros [H|H]; discriminate.
  - intros H. assert (X : is_void_element (bs "p") html5_void = true) by (apply existsb_exists; exists (bs "p"); split; auto; apply beq_refl).
    discriminate X.
  - attrs_tac.
  - repeat (apply Forall_cons; [|]); try apply Forall_nil; auto;
      apply G_comment; [apply ascii_utf8; reflexivity|apply NO; reflexivity|apply ascii_utf8; reflexivity|apply NO; reflexivity
        |apply ascii_utf8; reflexivity|apply NO; reflexivity].
  - cbn. auto.
  - reflexivity.
Qed.
Example C74_regions : Forall (plain demo_unicode) rdemo /\ paired demo_unicode 0 rdemo /\
  map (fun r => (f_start r, f_end r, f_kind r)) (spans_all demo_unicode (utf16_doc (render_all rdemo)) 0 rdemo) =
    [(1, 2, Some KRegion); (1, 3, None); (0, 5, Some KRegion)] /\
  get_folding_ranges demo_unicode (utf16_doc (render_all rdemo)) None html5_void false =
    Ok [mkF 1 2 (Some KRegion); mkF 0 5 (Some KRegion)].
Proof.
  split; [|split; [vm_compute; exact I|split; vm_compute; reflexivity]].
  repeat (apply Forall_cons; [|]); try apply Forall_nil; try constructor; [repeat constructor|vm_compute; exact I].
Qed.
(** A region that ends inside an element that begins in it takes the range of the element. *)
Theorem C74_crossing_refuted :
  let d := utf16_doc (bs "<!--#region-->" ++ nl ++ bs "<p>" ++ nl ++ bs "<!--#endregion-->" ++ nl ++ nl ++ bs "</p>") in
  get_folding_ranges demo_unicode d None html5_void false = Ok [mkF 0 2 (Some KRegion)].
Proof. vm_compute. reflexivity. Qed.
(** The last marker needs no '#', and may be anywhere in the comment. *)
Theorem C74_marker_refuted :
  let d := utf16_doc (bs "<!--#region-->" ++ nl ++ bs "<!--where does the endregion go-->") in
  get_folding_ranges demo_unicode d None html5_void false = Ok [mkF 0 1 (Some KRegion)].
Proof. vm_compute. reflexivity. Qed.
