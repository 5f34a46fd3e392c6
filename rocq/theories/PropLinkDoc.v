(** * C75: the links of a well-formed document *)
From Verif Require Import Base Stream Scanner BaseFacts ScannerFacts ScanStep ScanProps ScanPanic
  Tree Parser ParseSpec PropParse TextDoc PropDoc SelectionRange TokenLoop Folding PropFolding DataManager Uri Links PropUri PropLinks PropLinkAnswers
  Render RenderFacts PropRender Lexing TokenRun PropTokens PropFoldDoc.
From Coq Require Import ZifyBool ZifyNat ZifyN.

(** ** Specification *)
(** A value of an attribute: the element's name, the attribute's name, the value
    without quotes, where it is written (with its quotes) and where its text is. *)
Record occ := mkOcc { oc_tag : str; oc_attr : str; oc_value : str; oc_at : nat; oc_from : nat }.
(** What is read from a document: names of start tags and values of attributes. *)
Inductive event := Tag (name : str) | Value (x : occ).
(** The value of an attribute whose name ends at [o]. *)
Definition value_occ (tag attr : str) (o : nat) (v : hvalue) : list event :=
  match v with
  | NoValue => []
  | Bare gap v => let a := o + length gap + 1 in [Value (mkOcc tag attr v a a)]
  | Quoted gap q v => let a := o + length gap + 1 in [Value (mkOcc tag attr v a (a + 1))]
  end.
Fixpoint attr_occs (tag : str) (o : nat) (l : list hattr) : list event :=
  match l with
  | [] => []
  | a :: r => value_occ tag (ha_name a) (o + length (ha_space a) + length (ha_name a)) (ha_value a) ++
              attr_occs tag (o + length (render_attr a)) r
  end.
Section Occs.
Variable f : nat -> html -> list event.
Fixpoint occs_with (o : nat) (l : list html) : list event :=
  match l with
  | [] => []
  | h :: r => f o h ++ occs_with (o + length (render h)) r
  end.
End Occs.
(** The tags and values of a document written from offset [o], in the order of the text. *)
Fixpoint occs (o : nat) (h : html) : list event :=
  match h with
  | HText _ | HComment _ | HDoctype _ _ => []
  | HElement name attrs pad body _ _ =>
      Tag name :: attr_occs name (o + 1 + length name) attrs ++
      occs_with occs (o + length (start_tag name attrs pad (bs ">"))) body
  | HRaw name attrs _ _ _ | HVoid name attrs _ | HSelf name attrs _ =>
      Tag name :: attr_occs name (o + 1 + length name) attrs
  end.
Definition occs_all (o : nat) (l : list html) : list event := occs_with occs o l.

Section Spec.
Variables (U : unicode) (Lb : uri_lib) (resolve : str -> str -> res (option str)) (uri : str).
Variables (d : textdoc) (cs : bool).
(** The attribute holds a path, as the table of path attributes has it. *)
Definition path_occ (x : occ) : Prop :=
  is_path_attribute (fold_name U cs (oc_tag x)) (fold_name U cs (oc_attr x)) = true.
Definition id_occ (v : str) (x : occ) : Prop := fold_name U cs (oc_attr x) = bs "id" /\ oc_value x = v.
(** The last element with the id [v]: where its value is written. *)
Definition id_at (l : list event) (v : str) (o : nat) : Prop :=
  exists l1 x l2, l = l1 ++ Value x :: l2 /\ id_occ v x /\ oc_at x = o /\ forall y, In (Value y) l2 -> ~ id_occ v y.
(** The base that a value gives. *)
Definition gives_base (v b : str) : Prop :=
  v = [] /\ b = [] \/ v <> [] /\ (resolve v uri = Ok (Some b) \/ resolve v uri = Ok None /\ b = v).
(** One link for each path that can be followed and points somewhere, in order.
    Behind a [base] tag ([pending]) the next path gives no link but, if it is the
    first, the base of the paths behind it. *)
Inductive links_of (ids : str -> nat -> Prop) : bool -> option str -> list event -> list link -> Prop :=
| links_nil pending base : links_of ids pending base [] []
| links_tag pending base n l ls :
    links_of ids (pending || beq (fold_name U cs n) (bs "base")) base l ls -> links_of ids pending base (Tag n :: l) ls
| links_base base b x l ls :
    path_occ x -> match base with Some b0 => b = b0 | None => gives_base (oc_value x) b end ->
    links_of ids false (Some b) l ls -> links_of ids true base (Value x :: l) ls
| links_other pending base x l ls :
    ~ path_occ x -> links_of ids pending base l ls -> links_of ids pending base (Value x :: l) ls
| links_skip base x l ls :
    path_occ x ->
    ~ linkable U (oc_value x) \/ (forall w, ~ points_to U resolve uri (match base with Some b => b | None => uri end) (oc_value x) w) ->
    links_of ids false base l ls -> links_of ids false base (Value x :: l) ls
| links_one base x l k ls w :
    path_occ x -> linkable U (oc_value x) ->
    points_to U resolve uri (match base with Some b => b | None => uri end) (oc_value x) w ->
    lk_range k = range_at d (oc_from x) (oc_from x + length (oc_value x)) ->
    final_target Lb uri d ids w (lk_target k) ->
    links_of ids false base l ls -> links_of ids false base (Value x :: l) (k :: ls).
End Spec.

(** ** Proof *)
Section P.
Variables (U : unicode) (Lb : uri_lib) (resolve : str -> str -> res (option str)) (uri : str).
Variables (d : textdoc) (cs : bool) (void : list str).
Hypothesis HD : textdoc_ok d.
Let t := d_text d.
Notation step := (tlink U Lb resolve uri d cs).
Notation fold := (link_fold U Lb resolve uri d cs).
Notation fn := (fold_name U cs).

Definition lfold (o : nat) (l : list piece) (s : lstate) : res lstate :=
  fold (map bare_token (place o (filter written l))) s.
Lemma fold_tokens_seen ks : forall s, fold ks s = fold (map bare_token (map seen ks)) s.
Proof.
  unfold link_fold. induction ks as [|k ks IH]; intros s; auto. cbn [map foldm].
  change (step (bare_token (seen k)) s) with (step k s). destruct (step k s); cbn [bind]; auto.
Qed.
Lemma fold_app_eq l m : forall s, fold (l ++ m) s = do s1 <- fold l s; fold m s1.
Proof.
  unfold link_fold. induction l as [|k l IH]; intros s; auto. cbn [app foldm]. destruct (step k s); cbn [bind]; auto.
Qed.
Lemma lfold_app o l m s : lfold o (l ++ m) s = do s1 <- lfold o l s; lfold (o + length (joined l)) m s1.
Proof. unfold lfold. rewrite filter_app, place_app, map_app, fold_app_eq, joined_written. reflexivity. Qed.
Lemma lfold_cons o k x l s : lfold o ((k, x) :: l) s = do s1 <- lfold o [(k, x)] s; lfold (o + length x) l s1.
Proof.
  change ((k, x) :: l) with ([(k, x)] ++ l). rewrite lfold_app. cbn [joined flat_map snd]. rewrite app_nil_r. reflexivity.
Qed.
Lemma lfold_one o k x s : x <> [] -> lfold o [(k, x)] s = step (mkToken k o (o + length x) None WithinContent) s.
Proof.
  intros N. unfold lfold. cbn [filter]. unfold written. cbn [snd]. destruct x; [tauto|]. unfold link_fold. cbn [map place foldm].
  match goal with |- bind ?a _ = ?b => change b with a; destruct a; reflexivity end.
Qed.
Definition still (k : token_type) : Prop := k <> StartTag /\ k <> AttributeName /\ k <> AttributeValue.
Lemma lfold_still l s : Forall (fun p => still (fst p)) l -> forall o, lfold o l s = Ok s.
Proof.
  intros H. revert s. induction H as [|[k x] l (A & B & C) _ IH]; intros s o; [reflexivity|].
  rewrite lfold_cons.
  assert (E : lfold o [(k, x)] s = Ok s).
  { destruct x as [|b x]; [reflexivity|]. rewrite lfold_one by discriminate. unfold tlink. cbn [tk_type fst] in *.
    destruct k; try reflexivity; tauto. }
  rewrite E. cbn [bind]. apply IH.
Qed.
Ltac still := unfold still; repeat split; discriminate.
Lemma text_here k o a s : skipn o t = a ++ s -> tk_text t (mkToken k o (o + length a) None WithinContent) = a.
Proof. apply (here d). Qed.
Lemma skip_more o a s : skipn o t = a ++ s -> skipn (o + length a) t = s.
Proof. apply (PropFoldDoc.skip_more d). Qed.

(** What [create_link] makes of a value. *)
Definition from (base : option str) : str := match base with Some b => b | None => uri end.
Inductive made : bool -> option str -> list event -> list link -> bool -> option str -> Prop :=
| made_nil p b : made p b [] [] p b
| made_tag p b n l ls p' b' : made (p || beq (fn n) (bs "base")) b l ls p' b' -> made p b (Tag n :: l) ls p' b'
| made_base base b x l ls p' b' : path_occ U cs x ->
    match base with Some b0 => b = b0 | None => gives_base resolve uri (oc_value x) b end ->
    made false (Some b) l ls p' b' -> made true base (Value x :: l) ls p' b'
| made_other p b x l ls p' b' : ~ path_occ U cs x -> made p b l ls p' b' -> made p b (Value x :: l) ls p' b'
| made_skip b x l ls p' b' : path_occ U cs x ->
    ~ linkable U (oc_value x) \/ (forall w, ~ points_to U resolve uri (from b) (oc_value x) w) ->
    made false b l ls p' b' -> made false b (Value x :: l) ls p' b'
| made_one b x l ls w tg p' b' :
    path_occ U cs x -> linkable U (oc_value x) -> points_to U resolve uri (from b) (oc_value x) w ->
    validate_and_clean_uri Lb uri w = Ok tg ->
    made false b l ls p' b' -> made false b (Value x :: l) (mkLink (range_at d (oc_from x) (oc_from x + length (oc_value x))) tg :: ls) p' b'.
Lemma made_app p b l ls p' b' m ms p2 b2 : made p b l ls p' b' -> made p' b' m ms p2 b2 -> made p b (l ++ m) (ls ++ ms) p2 b2.
Proof. induction 1; cbn [app]; auto; intros; [apply made_tag|eapply made_base|apply made_other|apply made_skip|eapply made_one]; eauto. Qed.
Lemma word_valid v : validate_ref U v = true <-> has_word U v.
Proof.
  rewrite <- reg_ref_word. unfold validate_ref. destruct v; [|tauto]. split; intros H; exact H.
Qed.
Lemma created base raw v a f r : Utf8 v -> stripped raw v -> ~ lone_quote raw ->
  (raw = v /\ f = a) \/ (exists q, raw = q :: v ++ [q] /\ f = a + 1) ->
  create_link U Lb resolve uri d raw a (a + length raw) base = Ok r ->
  match r with
  | None => ~ linkable U v \/ (forall w, ~ points_to U resolve uri (from base) v w)
  | Some k => linkable U v /\ exists w tg, points_to U resolve uri (from base) v w /\
      validate_and_clean_uri Lb uri w = Ok tg /\ k = mkLink (range_at d f (f + length v)) tg
  end.
Proof.
  intros UV ST NL F H. unfold create_link in H. rewrite (proj2 (C38_strip raw v) (conj ST NL)) in H. cbn [bind] in H.
  destruct (validate_ref U v) eqn:V; cbn [negb] in H.
  2:{ apply Ok_inj in H. subst r. left. intros (_ & _ & W). apply word_valid in W. congruence. }
  apply word_valid in V.
  apply bind_ok in H as ([so eo] & SP & H). apply bind_ok in H as (w & W & H).
  assert (SE : so = f /\ eo = f + length v).
  { destruct F as [[-> ->]|(q & -> & ->)].
    - rewrite Nat.ltb_irrefl in SP. apply Ok_inj in SP. inversion SP. auto.
    - cbn [length] in SP. rewrite app_length in SP. cbn [length] in SP.
      replace (length v <? _) with true in SP by (symmetry; apply Nat.ltb_lt; lia).
      apply bind_ok in SP as (e & U1 & SP). unfold usub in U1. destruct (1 <=? _); [|discriminate].
      apply Ok_inj in U1. subst e. apply Ok_inj in SP. inversion SP. split; lia. }
  destruct SE; subst so eo. destruct w as [w|].
  - apply bind_ok in H as (tg & VC & H). apply Ok_inj in H. subst r. apply ws_url in W as (J & B & P); auto.
    split; [repeat split; auto|]. exists w, tg. auto.
  - apply Ok_inj in H. subst r.
    destruct (reg_javascript v) eqn:J.
    { apply reg_javascript_iff in J; auto. left. intros (A & B & _). tauto. }
    assert (NJ : ~ (javascript_url v \/ has_line_break v)) by (rewrite <- reg_javascript_iff by auto; congruence).
    right. intros w P. rewrite (ws_url_complete U resolve uri v base w) in W; try tauto; discriminate.
Qed.

(** The ids among values, the newest first. *)
Definition id_of (e : event) : list (str * nat) :=
  match e with Value x => if beq (fn (oc_attr x)) (bs "id") then [(oc_value x, oc_at x)] else [] | Tag _ => [] end.
Definition ids_in (l : list event) : list (str * nat) := rev (flat_map id_of l).
Lemma ids_app l m : ids_in (l ++ m) = ids_in m ++ ids_in l.
Proof. unfold ids_in. rewrite flat_map_app, rev_app_distr. reflexivity. Qed.
Record grows (s : lstate) (l : list event) (s' : lstate) : Prop := {
  g_links : exists ls, l_links s' = l_links s ++ ls /\ made (l_in_base s) (l_base s) l ls (l_in_base s') (l_base s');
  g_ids : l_ids s' = ids_in l ++ l_ids s;
}.
Lemma grows_nil s s' : l_links s' = l_links s -> l_in_base s' = l_in_base s -> l_base s' = l_base s -> l_ids s' = l_ids s -> grows s [] s'.
Proof. intros A B B2 C. split; auto. exists []. rewrite app_nil_r, B, B2. split; [auto|constructor]. Qed.
Lemma grows_trans s l s1 m s2 : grows s l s1 -> grows s1 m s2 -> grows s (l ++ m) s2.
Proof.
  intros [(ls & A & B) C] [(ms & A' & B') C']. split; auto.
  - exists (ls ++ ms). rewrite A', A, app_assoc. split; auto. eapply made_app; eauto.
  - rewrite C', C, ids_app, app_assoc. reflexivity.
Qed.

(** The value token. *)
Lemma value_step tag attr v raw a f r s s' : Utf8 v -> stripped raw v -> ~ lone_quote raw -> raw <> [] ->
  (raw = v /\ f = a) \/ (exists q, raw = q :: v ++ [q] /\ f = a + 1) ->
  skipn a t = raw ++ r -> l_tag s = Some (fn tag) -> l_attr s = Some (fn attr) ->
  lfold a [(AttributeValue, raw)] s = Ok s' ->
  grows s [Value (mkOcc tag attr v a f)] s' /\ l_tag s' = l_tag s.
Proof.
  intros UV ST NL NE F E T A H. rewrite lfold_one in H by auto. unfold tlink in H. cbn [tk_type] in H.
  rewrite T, A in H. cbn [tk_off tk_end] in H. fold t in H.
  rewrite (text_here AttributeValue _ _ _ E) in H.
  destruct (is_path_attribute (fn tag) (fn attr)) eqn:P.
  - assert (NI : beq (fn attr) (bs "id") = false).
    { destruct (beq (fn attr) (bs "id")) eqn:B; auto. apply beq_eq in B. rewrite B, id_not_path in P. discriminate. }
    assert (ID : ids_in [Value (mkOcc tag attr v a f)] = []).
    { unfold ids_in. cbn [flat_map id_of oc_attr]. rewrite NI. reflexivity. }
    destruct (l_in_base s) eqn:IB.
    + apply bind_ok in H as (b & B & H). apply Ok_inj in H. subst s'. split; [|cbn [l_tag]; auto].
      split; cbn [l_links l_in_base l_base l_ids]; [|rewrite ID; auto]. exists []. rewrite app_nil_r. split; auto. rewrite IB.
      destruct (l_base s) as [b0|].
      * apply Ok_inj in B. subst b. eapply made_base; [exact P|reflexivity|]. apply made_nil.
      * rewrite (proj2 (C38_strip raw v) (conj ST NL)) in B. cbn [bind] in B.
        assert (GB : exists b', b = Some b' /\ gives_base resolve uri v b').
        { destruct v as [|y v'].
          - apply Ok_inj in B. subst b. exists []. split; auto. left. auto.
          - apply bind_ok in B as (r' & R & B). apply Ok_inj in B. subst b. eexists. split; [reflexivity|]. right.
            split; [discriminate|]. destruct r'; auto. }
        destruct GB as (b' & -> & GB). eapply made_base; [exact P|exact GB|]. apply made_nil.
    + apply bind_ok in H as (lk & CL & H). apply Ok_inj in H. subst s'.
      pose proof (created _ _ _ _ _ _ UV ST NL F CL) as K.
      split; [|cbn [l_tag]; auto]. split; cbn [l_links l_in_base l_base l_ids]; [|rewrite ID; auto].
      eexists. split; [reflexivity|]. rewrite IB. destruct lk as [k|].
      * destruct K as (K1 & w & tg & K2 & K3 & ->).
        eapply (made_one _ (mkOcc tag attr v a f) [] []); [exact P|exact K1|exact K2|exact K3|constructor].
      * apply made_skip; [exact P|exact K|constructor].
  - assert (SK : forall p b, made p b [Value (mkOcc tag attr v a f)] [] p b).
    { intros p b. apply made_other; [|constructor]. unfold path_occ. cbn [oc_tag oc_attr]. congruence. }
    destruct (beq (fn attr) (bs "id")) eqn:B.
    + rewrite (proj2 (C38_strip raw v) (conj ST NL)) in H. cbn [bind] in H. apply Ok_inj in H. subst s'.
      split; [|cbn [l_tag]; auto]. split; cbn [l_links l_in_base l_base l_ids].
      * exists []. rewrite app_nil_r. auto.
      * unfold ids_in. cbn [flat_map id_of oc_attr]. rewrite B. reflexivity.
    + apply Ok_inj in H. subst s'. split; auto. split.
      * exists []. rewrite app_nil_r. auto.
      * unfold ids_in. cbn [flat_map id_of oc_attr]. rewrite B. reflexivity.
Qed.
Lemma bare_plain v : v <> [] -> made_of bare_char v -> stripped v v /\ ~ lone_quote v.
Proof.
  intros NE M. destruct (bare_first _ M NE) as (b & r & -> & _ & Q1 & Q2). split.
  - right. split; auto. intros (q & w & [->| ->] & E); inversion E; congruence.
  - intros (q & [->| ->] & E); inversion E; congruence.
Qed.
Lemma quoted_plain q v : q = 34%N \/ q = 39%N -> stripped (q :: v ++ [q]) v /\ ~ lone_quote (q :: v ++ [q]).
Proof.
  intros Q. split; [left; exists q; auto|]. intros (q' & _ & E). inversion E. destruct v; discriminate.
Qed.
Lemma attr_step tag a o r s s' : good_attr a -> skipn o t = render_attr a ++ r -> l_tag s = Some (fn tag) ->
  lfold o (lex_attr a) s = Ok s' ->
  grows s (value_occ tag (ha_name a) (o + length (ha_space a) + length (ha_name a)) (ha_value a)) s' /\ l_tag s' = l_tag s.
Proof.
  intros (G1 & G2 & G3 & G4 & G5) E T H. unfold lex_attr in H. cbn [app] in H. unfold render_attr in E. rewrite <- !app_assoc in E.
  assert (E1 := skip_more _ _ _ E). assert (E2 := skip_more _ _ _ E1).
  rewrite lfold_cons, lfold_still in H by (repeat constructor; still). cbn [bind] in H.
  rewrite lfold_cons, lfold_one in H by auto. unfold tlink at 1 in H. cbn [tk_type] in H. fold t in H.
  rewrite (text_here AttributeName _ _ _ E1) in H. cbn [bind] in H.
  set (s1 := mkLS (l_links s) (Some (fn (ha_name a))) (l_tag s) (l_in_base s) (l_base s) (l_ids s)) in *.
  set (b := o + length (ha_space a) + length (ha_name a)) in *.
  assert (VAL : forall gap raw v f, lex_value (ha_value a) = [(Whitespace, gap); (DelimiterAssign, bs "="); (AttributeValue, raw)] ->
    render_value (ha_value a) = gap ++ bs "=" ++ raw ->
    Utf8 v -> stripped raw v -> ~ lone_quote raw -> raw <> [] ->
    (raw = v /\ f = b + length gap + 1) \/ (exists q, raw = q :: v ++ [q] /\ f = b + length gap + 1 + 1) ->
    grows s [Value (mkOcc tag (ha_name a) v (b + length gap + 1) f)] s' /\ l_tag s' = l_tag s).
  { intros gap raw v f LX RV UV ST NL NE F. rewrite LX in H. rewrite RV, <- !app_assoc in E2.
    assert (E3 := skip_more _ _ _ E2). assert (E4 := skip_more _ _ _ E3).
    rewrite lfold_cons, lfold_still in H by (repeat constructor; still). cbn [bind] in H.
    rewrite lfold_cons, lfold_still in H by (repeat constructor; still). cbn [bind] in H.
    change (length (bs "=")) with 1 in *.
    destruct (value_step tag (ha_name a) v raw _ f r s1 s' UV ST NL NE F E4 T eq_refl H) as [[GL GI] GT].
    split; auto. split; auto. }
  destruct (ha_value a) as [|gap v|gap q v]; cbn [value_occ].
  - cbn [lex_value] in H. apply Ok_inj in H. subst s'. split; auto. apply grows_nil; auto.
  - destruct G5 as (_ & N & M). destruct (bare_plain _ N M) as [ST NL]. apply (VAL gap v v); auto; try reflexivity. eapply made_of_utf8; eauto.
  - destruct G5 as (_ & Q & UV & _). destruct (quoted_plain q v Q) as [ST NL].
    apply (VAL gap (q :: v ++ [q]) v); auto; try reflexivity; [discriminate|]. right. exists q. auto.
Qed.
Lemma attrs_step tag l : Forall good_attr l -> forall o r s s', skipn o t = render_attrs l ++ r -> l_tag s = Some (fn tag) ->
  lfold o (flat_map lex_attr l) s = Ok s' -> grows s (attr_occs tag o l) s'.
Proof.
  induction 1 as [|a l Ga _ IH]; intros o r s s' E T H.
  - apply Ok_inj in H. subst s'. apply grows_nil; auto.
  - cbn [flat_map render_attrs] in *. change (flat_map render_attr l) with (render_attrs l) in E. rewrite <- app_assoc in E.
    rewrite lfold_app in H. apply bind_ok in H as (s1 & H1 & H2).
    destruct (attr_step tag a o _ s s1 Ga E T H1) as [GR GT]. cbn [attr_occs]. eapply grows_trans; eauto.
    replace (joined (lex_attr a)) with (render_attr a) in H2.
    2:{ pose proof (joined_attrs [a]) as J. cbn [flat_map render_attrs] in J. rewrite !app_nil_r in J. auto. }
    eapply IH; eauto; [eapply skip_more; eauto|congruence].
Qed.
Lemma start_step o name attrs pad k stop r s s' : skipn o t = start_tag name attrs pad stop ++ r -> name <> [] -> good_attrs attrs ->
  still k -> lfold o (lex_start name attrs pad (k, stop)) s = Ok s' -> grows s (Tag name :: attr_occs name (o + 1 + length name) attrs) s'.
Proof.
  intros E N [G _] K H. unfold lex_start in H. unfold start_tag in E. rewrite <- !app_assoc in E.
  assert (E1 := skip_more _ _ _ E). assert (E2 := skip_more _ _ _ E1). change (length (bs "<")) with 1 in *.
  cbn [app] in H. rewrite lfold_cons, lfold_still in H by (repeat constructor; still). cbn [bind] in H.
  change (length (bs "<")) with 1 in H.
  rewrite lfold_cons, lfold_one in H by auto. unfold tlink at 1 in H. cbn [tk_type] in H. fold t in H.
  rewrite (text_here StartTag _ _ _ E1) in H. cbn [bind] in H.
  rewrite lfold_app in H. apply bind_ok in H as (s1 & H1 & H2).
  rewrite lfold_still in H2.
  2:{ constructor; [still|]. constructor; [exact K|constructor]. }
  apply Ok_inj in H2. subst s1.
  set (s1 := mkLS (l_links s) (l_attr s) (Some (fn name)) (l_in_base s || beq (fn name) (bs "base")) (l_base s) (l_ids s)) in *.
  destruct (attrs_step name attrs G (o + 1 + length name) _ s1 s' E2 eq_refl H1) as [(ls & A1 & A2) D]. split.
  - exists ls. split; [exact A1|]. apply made_tag. exact A2.
  - rewrite D. change (Tag name :: attr_occs name (o + 1 + length name) attrs) with ([Tag name] ++ attr_occs name (o + 1 + length name) attrs).
    rewrite ids_app. cbn. rewrite app_nil_r. reflexivity.
Qed.

Definition item_links (h : html) : Prop := forall o r s s', skipn o t = render h ++ r ->
  lfold o (lex h) s = Ok s' -> grows s (occs o h) s'.
Lemma list_links l : Forall item_links l -> forall o r s s', skipn o t = render_all l ++ r ->
  lfold o (flat_map lex l) s = Ok s' -> grows s (occs_all o l) s'.
Proof.
  induction 1 as [|h l H _ IH]; intros o r s s' E F.
  - apply Ok_inj in F. subst s'. apply grows_nil; auto.
  - cbn [flat_map render_all] in *. change (flat_map render l) with (render_all l) in E. rewrite <- app_assoc in E.
    rewrite lfold_app, joined_lex in F. apply bind_ok in F as (s1 & F1 & F2). unfold occs_all. cbn [occs_with].
    pose proof (H o _ s s1 E F1) as GR. eapply grows_trans; eauto. eapply IH; eauto. eapply skip_more; eauto.
Qed.
Lemma still_end name pad : Forall (fun p => still (fst p)) (lex_end name pad).
Proof. unfold lex_end. repeat (constructor; [still|]). constructor. Qed.
Lemma item_all : forall h, good U cs void h -> item_links h.
Proof.
  fix IH 1. intros h G. destruct h as [x|x|w x|name attrs pad body close pad2|name attrs pad x pad2|name attrs pad|name attrs pad];
    intros o r s s' E H; cbn [occs lex] in *.
  - rewrite lfold_still in H by (repeat constructor; still). apply Ok_inj in H. subst s'. apply grows_nil; auto.
  - rewrite lfold_still in H by (repeat constructor; still). apply Ok_inj in H. subst s'. apply grows_nil; auto.
  - rewrite lfold_still in H by (repeat constructor; still). apply Ok_inj in H. subst s'. apply grows_nil; auto.
  - inversion G as [| | |? ? ? ? ? ? G1 G2 G3 G4 G5 G6 G7 G8 G9 G10| | | |]; subst.
    destruct (good_name_utf8 _ _ G1) as [_ NE]. cbn [render] in *. change (flat_map render body) with (render_all body) in *.
    rewrite <- !app_assoc in E. rewrite lfold_app, joined_start in H. apply bind_ok in H as (s1 & H1 & H).
    rewrite lfold_app in H. apply bind_ok in H as (s2 & H2 & H). rewrite lfold_still in H by apply still_end.
    apply Ok_inj in H. subst s2. assert (SK : still StartTagClose) by still.
    pose proof (start_step _ _ _ _ _ _ _ _ _ E NE G4 SK H1) as GR. rewrite app_comm_cons. eapply grows_trans; eauto.
    assert (IB : Forall item_links body).
    { clear - IH G6. revert body G6. fix IHl 1. intros body G6. destruct body as [|h l]; [constructor|].
      constructor; [apply IH; inversion G6; auto|apply IHl; inversion G6; auto]. }
    eapply (list_links body IB); eauto. eapply skip_more; eauto.
  - assert (GN : name <> [] /\ good_attrs attrs) by (inversion G; subst; split; auto; discriminate).
    destruct GN as [NE GA]. cbn [render] in *. rewrite <- !app_assoc in E.
    rewrite lfold_app, joined_start in H. apply bind_ok in H as (s1 & H1 & H).
    rewrite lfold_still in H.
    2:{ constructor; [|apply still_end]. destruct (beq name (bs "script")); still. }
    apply Ok_inj in H. subst s1. eapply start_step; eauto. still.
  - inversion G as [| | | | | |? ? ? G1 G2 G3 G4 G5|]; subst. destruct (good_name_utf8 _ _ G1) as [_ NE].
    cbn [render] in *. eapply start_step; eauto. still.
  - inversion G as [| | | | | | |? ? ? G1 G2 G3 G4]; subst. destruct (good_name_utf8 _ _ G1) as [_ NE].
    cbn [render] in *. eapply start_step; eauto. still.
Qed.

(** The ids. *)
Lemma ids_in_at l : forall v o, assoc v (ids_in l) = Some o -> id_at U cs l v o.
Proof.
  induction l as [|e l IH] using rev_ind; intros v o H; [discriminate|]. rewrite ids_app in H.
  assert (LATER : assoc v (ids_in l) = Some o -> (forall y, e = Value y -> ~ id_occ U cs v y) -> id_at U cs (l ++ [e]) v o).
  { intros H1 N. destruct (IH _ _ H1) as (l1 & y & l2 & -> & A & A2 & A3). exists l1, y, (l2 ++ [e]). rewrite <- app_assoc.
    split; auto. split; auto. split; auto. intros z I. apply in_app_iff in I as [I|[I|[]]]; auto. }
  unfold ids_in at 1 in H. cbn [flat_map] in H. destruct e as [n|x]; cbn [id_of app rev] in H; [apply LATER; auto; discriminate|].
  destruct (beq (fn (oc_attr x)) (bs "id")) eqn:B; cbn [app rev assoc] in H.
  - destruct (beq v (oc_value x)) eqn:Q.
    + inversion H. apply beq_eq in Q, B. exists l, x, []. split; auto. split; [split; auto|]. split; auto.
    + apply LATER; auto. intros y Y. inversion Y. subst y. intros [_ Q2]. rewrite Q2, beq_refl in Q. discriminate.
  - apply LATER; auto. intros y Y. inversion Y. subst y. intros [Q2 _]. rewrite Q2, beq_refl in B. discriminate.
Qed.
Lemma at_ids_in l v o : id_at U cs l v o -> assoc v (ids_in l) = Some o.
Proof.
  intros (l1 & x & l2 & -> & [A1 A2] & A3 & A4).
  assert (S : forall m, assoc v (ids_in (l2) ++ m) = assoc v m).
  { clear - A4. induction l2 as [|e l2 IH]; intros m; auto.
    change (e :: l2) with ([e] ++ l2). rewrite ids_app, <- app_assoc, IH by (intros y I; apply A4; right; auto).
    unfold ids_in. cbn [flat_map]. destruct e as [n|y]; cbn [id_of app rev]; auto.
    destruct (beq (fn (oc_attr y)) (bs "id")) eqn:B; auto. cbn [app rev assoc].
    destruct (beq v (oc_value y)) eqn:Q; auto. exfalso. apply (A4 y); [left; auto|]. apply beq_eq in B, Q. split; auto. }
  change (Value x :: l2) with ([Value x] ++ l2). rewrite !ids_app, <- app_assoc, S. unfold ids_in at 1. cbn [flat_map id_of].
  rewrite A1, beq_refl. cbn [app rev assoc]. rewrite A2, beq_refl, A3. auto.
Qed.
Lemma final_of l r tg lk w : local_target Lb uri d (ids_in l) (mkLink r tg) = Ok lk ->
  validate_and_clean_uri Lb uri w = Ok tg -> lk_range lk = r /\ final_target Lb uri d (id_at U cs l) w (lk_target lk).
Proof.
  intros H V. unfold local_target in H. cbn [lk_target lk_range] in H. destruct tg as [x|].
  2:{ apply Ok_inj in H. subst lk. split; auto. exists None. split; auto. split; [discriminate|]. split; [auto|]. discriminate. }
  split.
  { destruct (is_prefix (uri ++ bs "#") x); [|apply Ok_inj in H; subst lk; auto].
    destruct (assoc _ _); [apply bind_ok in H as (y & _ & H)|]; apply Ok_inj in H; subst lk; auto. }
  exists (Some x). split; auto. split; [|split; [discriminate|]].
  - intros x' E NP. apply Some_inj in E. subst x'. rewrite NP in H. apply Ok_inj in H. subst lk. auto.
  - intros h E. apply Some_inj in E. subst x.
    assert (PR : is_prefix (uri ++ bs "#") (uri ++ bs "#" ++ h) = true)
      by (rewrite app_assoc; clear; induction (uri ++ bs "#"); cbn; [auto|rewrite N.eqb_refl; auto]).
    assert (SK : skipn (length (uri ++ bs "#")) (uri ++ bs "#" ++ h) = h).
    { rewrite app_assoc, skipn_app, skipn_all, Nat.sub_diag. reflexivity. }
    rewrite PR, SK in H. split.
    + intros p I. apply at_ids_in in I. rewrite I in H. apply bind_ok in H as (y & Y & H). apply Ok_inj in H. subst lk.
      cbn [lk_target]. unfold create_uri in Y. destruct (Lb _); [|discriminate]. apply Ok_inj in Y. subst y.
      rewrite <- app_assoc. reflexivity.
    + intros N. destruct (assoc h (ids_in l)) as [p|] eqn:A; [apply ids_in_at in A; exfalso; eapply N; eauto|].
      apply Ok_inj in H. subst lk. auto.
Qed.
Lemma made_links l0 p b l ls p' b' : made p b l ls p' b' -> forall ls', local_targets Lb uri d (ids_in l0) ls = Ok ls' ->
  links_of U Lb resolve uri d cs (id_at U cs l0) p b l ls'.
Proof.
  induction 1 as [p b|p b n l ls p' b' _ IH|base b x l ls p' b' A B _ IH|p b x l ls p' b' A _ IH|b x l ls p' b' A B _ IH
    |b x l ls w tg p' b' A B C D _ IH]; intros ls' H.
  - apply Ok_inj in H. subst ls'. constructor.
  - apply links_tag; auto.
  - eapply links_base; eauto.
  - apply links_other; auto.
  - apply links_skip; auto.
  - cbn [local_targets] in H. apply bind_ok in H as (k & K & H). apply bind_ok in H as (r & R & H). apply Ok_inj in H. subst ls'.
    destruct (final_of _ _ _ _ _ K D) as [F1 F2]. eapply links_one; eauto.
Qed.
End P.

(** ** C75 *)
(** The links of a well-formed document: one for each attribute that holds a path
    which can be followed and points somewhere, in the order of the text, on the
    value without its quotes, with the target the value points to; an anchor of the
    document itself is replaced by the place of the last element with that id. *)
Theorem C75_links : forall U Lb resolve uri d cs void l ls, textdoc_ok d -> d_text d = render_all l ->
  good_doc U cs void l ->
  find_document_links U Lb resolve uri d cs = Ok ls ->
  links_of U Lb resolve uri d cs (id_at U cs (occs_all 0 l)) false None (occs_all 0 l) ls.
Proof.
  intros U Lb resolve uri d cs void l ls HD E G H. unfold find_document_links in H. apply bind_ok in H as (s & S & H).
  apply (links_tokens U Lb resolve uri d cs HD) in S as (ks & T & F).
  destruct (C73_tokens U cs void false l G) as (ks' & z & T' & _ & SE & _).
  unfold fold_tokens in T. rewrite E, T' in T. cbn [bind] in T. apply Ok_inj in T. subst ks'.
  rewrite fold_tokens_seen, SE in F. change (lex_all l) with (filter written (flat_map lex l)) in F.
  assert (IF : Forall (item_links U Lb resolve uri d cs) l).
  { destruct G as [G _]. eapply Forall_impl; [|exact G]. intros h Gh. eapply item_all; eauto. }
  destruct (list_links U Lb resolve uri d cs l IF 0 [] lstate0 s) as [(ms & L & M) I].
  { rewrite E, app_nil_r. reflexivity. }
  { exact F. }
  cbn [lstate0 l_links l_ids l_in_base l_base app] in L, M, I. rewrite app_nil_r in I. rewrite L, I in H. eapply made_links; eauto.
Qed.
Print Assumptions C75_links.

(** With the resolver of the service there is always such an answer, if the address of
    the document has a scheme and the document asks for nothing the service gives up on
    ([sound_links], C61): a [file:] path without slash, a base without scheme. *)
Theorem C75_total : forall U Lb uri d cs void l, textdoc_ok d -> d_text d = render_all l ->
  good_doc U cs void l -> uri_ok Lb -> uri_closed Lb -> with_scheme Lb uri -> slash_file uri -> sound_links U Lb uri d cs ->
  exists ls, find_document_links U Lb (resolve_reference Lb) uri d cs = Ok ls /\
    links_of U Lb (resolve_reference Lb) uri d cs (id_at U cs (occs_all 0 l)) false None (occs_all 0 l) ls.
Proof.
  intros U Lb uri d cs void l HD E G LO LC WS SF SL.
  assert (F : exists ls, find_document_links U Lb (resolve_reference Lb) uri d cs = Ok ls).
  { destruct (C73_tokens U cs void false l G) as (ks & z & T & _). rewrite <- E in T.
    assert (FT : fold_tokens U (d_text d) cs = Ok ks) by (unfold fold_tokens; rewrite T; reflexivity).
    destruct (SL ks FT) as (S1 & S2 & S3).
    eapply (C61_answers U Lb (resolve_reference Lb) uri d cs HD LO LC ks FT S1 SF S2 (with_scheme Lb)); auto.
    - intros v b B. apply default_slash; auto.
    - intros l1 k l2 v EL PV EX. destruct (S3 l1 k l2 v EL PV EX) as (NE & x & R & W). destruct v; [congruence|].
      intros r R2. rewrite R in R2. apply Ok_inj in R2. subst r. exact W. }
  destruct F as (ls & F). exists ls. split; auto. eapply C75_links; eauto.
Qed.
Print Assumptions C75_total.

(** ** A document *)
Definition ldemo : list html :=
  [HElement (bs "p") [mkHAttr sp (bs "id") (Bare [] (bs "q"))] []
     [HElement (bs "a") [mkHAttr sp (bs "href") (Quoted [] 34%N (bs "x.html"))] [] [HText (bs "1")] (bs "a") [];
      HElement (bs "A") [mkHAttr sp (bs "HREF") (Bare sp (bs "#q"))] [] [HText (bs "2")] (bs "a") [];
      HVoid (bs "img") [mkHAttr sp (bs "alt") (Bare [] (bs "y")); mkHAttr sp (bs "src") (Quoted [] 39%N (bs "JavaScript:1"))] []]
     (bs "p") []].
Lemma ldemo_good : good_doc demo_unicode false html5_void ldemo.
Proof.
  assert (NV : forall n, is_void_element n html5_void = false -> ~ In n html5_void).
  { intros n H I. unfold is_void_element in H. rewrite <- not_true_iff_false in H. apply H. apply existsb_exists.
    exists n. split; auto. apply beq_refl. }
  assert (QV : forall q s, q = 34%N \/ q = 39%N -> forallb (fun c => (c <? 128)%N && negb (c =? q)%N) s = true -> good_value (Quoted [] q s)).
  { intros q s Q F. rewrite forallb_forall in F. split; [blanks|]. split; [auto|]. split.
    - apply ascii_utf8. apply forallb_forall. intros b I. apply F in I. lia.
    - intros I. apply F in I. lia. }
  assert (BV : forall g s, blank g -> s <> [] -> forallb (fun c => (c <? 128)%N && val_char c) s = true -> good_value (Bare g s)).
  { intros g s B N F. split; [auto|]. split; auto. 
    apply made_of_ascii with (g := val_char); auto.
    intros c Hc. unfold bare_char, val_char in *. destruct (is_uspace c); [discriminate|]. split; auto. cbn. lia. }
  split; [|cbn; auto]. apply Forall_cons; [|apply Forall_nil].
  apply G_element; try name; try blanks.
  - intros [H|H]; discriminate.
  - apply NV. reflexivity.
  - attrs_tac; attr_tac. cbn [ha_value]. apply BV; [blanks|discriminate|reflexivity].
  - apply Forall_cons; [|apply Forall_cons; [|apply Forall_cons; [|apply Forall_nil]]].
    + apply G_element; try name; try blanks.
      * intros [H|H]; discriminate.
      * apply NV. reflexivity.
      * attrs_tac; attr_tac. cbn [ha_value]. apply QV; [auto|reflexivity].
      * apply Forall_cons; [|apply Forall_nil].
        apply G_text. split; [discriminate|]. split; [apply ascii_utf8; reflexivity|cbn; intuition discriminate].
      * cbn. auto.
      * reflexivity.
    + apply G_element; try name; try blanks.
      * intros [H|H]; discriminate.
      * apply NV. reflexivity.
      * attrs_tac; attr_tac. cbn [ha_value]. apply BV; [blanks|discriminate|reflexivity].
      * apply Forall_cons; [|apply Forall_nil].
        apply G_text. split; [discriminate|]. split; [apply ascii_utf8; reflexivity|cbn; intuition discriminate].
      * cbn. auto.
      * reflexivity.
    + apply G_void; try name; try blanks; [intros [H|H]; discriminate|cbn; tauto|attrs_tac; attr_tac; cbn [ha_value]].
      * apply BV; [blanks|discriminate|reflexivity].
      * apply QV; [auto|reflexivity].
  - cbn. auto.
  - reflexivity.
Qed.
Example C75_demo : textdoc_ok (utf16_doc (render_all ldemo)) /\
  flat_map (fun e => match e with Value x => [(oc_attr x, oc_value x, oc_at x, oc_from x)] | Tag _ => [] end) (occs_all 0 ldemo) =
    [(bs "id", bs "q", 6, 6); (bs "href", bs "x.html", 16, 17); (bs "HREF", bs "#q", 39, 39);
     (bs "alt", bs "y", 56, 56); (bs "src", bs "JavaScript:1", 62, 63)] /\
  shown (link_run (render_all ldemo)) =
    Ok [(17, 23, Some (bs "https://h.org/d/x.html")); (39, 41, Some (link_uri ++ bs "#1,7"))].
Proof. split; [apply C27_contract, ascii_utf8; reflexivity|]. split; vm_compute; reflexivity. Qed.

(** Bases: the first one counts; one without a path takes the next path of any tag. *)
Definition bdemo (second : hattr) : list html :=
  [HVoid (bs "base") [mkHAttr sp (bs "href") (Quoted [] 34%N (bs "s/"))] [];
   HVoid (bs "img") [mkHAttr sp (bs "src") (Quoted [] 34%N (bs "x"))] [];
   HVoid (bs "base") [second] [];
   HVoid (bs "img") [mkHAttr sp (bs "src") (Quoted [] 34%N (bs "y"))] [];
   HVoid (bs "img") [mkHAttr sp (bs "src") (Quoted [] 34%N (bs "z"))] []].
Lemma bdemo_good a : good_attr a -> good_doc demo_unicode false html5_void (bdemo a).
Proof.
  intros GA.
  assert (QV : forall s, forallb (fun c => (c <? 128)%N && negb (c =? 34)%N) s = true -> good_value (Quoted [] 34%N s)).
  { intros s F. rewrite forallb_forall in F. split; [blanks|]. split; [auto|]. split.
    - apply ascii_utf8. apply forallb_forall. intros b I. apply F in I. lia.
    - intros I. apply F in I. lia. }
  split; [|cbn; auto].
  repeat (apply Forall_cons; [apply G_void; try name; try blanks; [intros [H|H]; discriminate|cbn; tauto|]|]); [| | | | |apply Forall_nil];
    try (attrs_tac; attr_tac; cbn [ha_value]; apply QV; reflexivity).
  split; [apply Forall_cons; auto|]. constructor; [intros []|constructor].
Qed.
Definition a_target : hattr := mkHAttr sp (bs "target") (Quoted [] 34%N (bs "_top")).
Definition a_href : hattr := mkHAttr sp (bs "href") (Quoted [] 34%N (bs "t/")).
Example C75_bases : good_attr a_href /\ good_attr a_target /\
  shown (link_run (render_all (bdemo a_href))) =
    Ok [(26, 27, Some (bs "https://h.org/d/s/x")); (55, 56, Some (bs "https://h.org/d/s/y")); (68, 69, Some (bs "https://h.org/d/s/z"))] /\
  shown (link_run (render_all (bdemo a_target))) =
    Ok [(26, 27, Some (bs "https://h.org/d/s/x")); (72, 73, Some (bs "https://h.org/d/s/z"))].
Proof.
  split; [|split; [|split; vm_compute; reflexivity]]; unfold a_href, a_target; attr_tac; cbn [ha_value];
    (split; [blanks|]); (split; [auto|]); (split; [apply ascii_utf8; reflexivity|cbn; intuition discriminate]).
Qed.
(** The hypotheses of C75_total hold for the first document. *)
Example C75_hypotheses : let d := utf16_doc (render_all ldemo) in
  textdoc_ok d /\ d_text d = render_all ldemo /\ good_doc demo_unicode false html5_void ldemo /\ uri_ok rfc_uri /\ uri_closed rfc_uri /\
  with_scheme rfc_uri link_uri /\ slash_file link_uri /\ sound_links demo_unicode rfc_uri link_uri d false.
Proof.
  intros d. assert (HD : textdoc_ok d) by (apply C27_contract, ascii_utf8; reflexivity).
  split; auto. split; [reflexivity|]. split; [apply ldemo_good|]. split; [apply C39_rfc_contract|]. split; [apply C61_rfc_contract|].
  split; [eexists; split; [vm_compute; reflexivity|discriminate]|]. split; [discriminate|].
  eapply plain_sound; [auto|vm_compute; reflexivity|vm_compute; reflexivity|vm_compute; reflexivity].
Qed.
