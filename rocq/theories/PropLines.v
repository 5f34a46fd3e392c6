(** * C68: the lines of a formatted document *)
From Verif Require Import Base Stream Scanner BaseFacts ScannerFacts ScanStep ScanProps ScanPanic
  ScanShape ScanResume ScanEnter ScanLocal Tree Parser ParseSpec ParseInv ParseOrder PropParse TreeFacts PropTree
  TextDoc PropDoc Formatter FormatFacts RepoTestsFormat PropFormat FormatWords Layout LayoutTree LayoutSettle.
From Coq Require Import ZifyBool ZifyNat ZifyN Permutation Sorted.

(** ** What is said about lines *)
(** A blank line *)
Definition blank (l : str) : Prop := Forall (fun b => b = SP \/ b = TAB) l.
(** No run of blank lines longer than the options allow: none at all unless line feeds are
    preserved, and at most the maximum, if there is one. *)
Definition few_blanks (o : format_options) (ls : list str) : Prop :=
  forall pre mid post, ls = pre ++ mid ++ post -> Forall blank mid ->
  mid = [] \/ (preserve_new_lines o = true /\ forall w, max_preserve_new_lines o = Some w -> length mid <= w).
(** A line of depth [k]: empty, or indented at least [k] levels *)
Definition deep (o : format_options) (k : nat) (l : str) : Prop := l = [] \/ exists x, l = indentation o k ++ x.
(** Lines, each with a line feed before it *)
Definition unl (ls : list str) : str := flat_map (fun l => LF :: l) ls.
(** No attribute value goes over several lines. *)
Definition one_line_values (n : node) : Prop :=
  forall x a v, attr_get x (n_attrs n) = Some a -> a_value a = Some v -> ~ In LF v.
(** Attributes are never put on lines of their own with tabs: there the formatter writes a line feed
    in place of a tab. *)
Definition no_tab_wrap (o : format_options) : Prop :=
  insert_spaces o = true \/ wrap_line_length o = None \/ wrap_attributes_indent_size o = Some 0.
(** An element with an end tag is kept on one line: the text in it has no line feed, the start tag is
    not broken, and with its text as it is in the document it is shorter than the line length. *)
Definition kept_short (o : format_options) (k : nat) (n : node) (tag inner : str) : Prop :=
  ~ In LF inner /\ fits o (one_line o k n tag) /\
  forall w, wrap_line_length o = Some w -> length (one_line o k n tag ++ inner ++ bs "</" ++ tag ++ bs ">") < w.

Section Lines.
Variable o : format_options.
Definition inked (l : str) : Prop := exists b, In b l /\ b <> SP /\ b <> TAB.
Lemma inked_not_blank l : inked l -> ~ blank l.
Proof. intros (b & I & A & B) F. unfold blank in F. rewrite Forall_forall in F. destruct (F b I); auto. Qed.
Lemma inked_l a b : inked a -> inked (a ++ b).
Proof. intros (x & I & H). exists x. split; auto. apply in_or_app; auto. Qed.
Lemma inked_r a b : inked b -> inked (a ++ b).
Proof. intros (x & I & H). exists x. split; auto. apply in_or_app; auto. Qed.
Lemma unl_app a b : unl (a ++ b) = unl a ++ unl b.
Proof. apply flat_map_app. Qed.
Lemma unl_join l : l <> [] -> unl l = LF :: join [LF] l.
Proof.
  induction l as [|x l IH]; intros N; [congruence|]. destruct l as [|y l]; [cbn; rewrite app_nil_r; reflexivity|].
  change (unl (x :: y :: l)) with ((LF :: x) ++ unl (y :: l)). rewrite IH by discriminate. reflexivity.
Qed.

(** *** Runs of blank lines *)
Lemma few_nil : few_blanks o [].
Proof. intros pre mid post E _. left. destruct pre; [|discriminate]. destruct mid; [auto|discriminate]. Qed.
Lemma few_sub a b c : few_blanks o (a ++ b ++ c) -> few_blanks o b.
Proof.
  intros H pre mid post -> F. apply (H (a ++ pre) mid (post ++ c)); auto. rewrite !app_assoc_reverse. reflexivity.
Qed.
Lemma few_tail x l : few_blanks o (x :: l) -> few_blanks o l.
Proof. intros H. apply (few_sub [x] l []). rewrite app_nil_r. exact H. Qed.
Lemma few_app_l a b : few_blanks o (a ++ b) -> few_blanks o a.
Proof. intros H. apply (few_sub [] a b). exact H. Qed.
Lemma few_app_r a b : few_blanks o (a ++ b) -> few_blanks o b.
Proof. intros H. apply (few_sub a b []). rewrite app_nil_r. exact H. Qed.
Lemma few_mid a x b : few_blanks o a -> inked x -> few_blanks o b -> few_blanks o (a ++ x :: b).
Proof.
  intros A X B pre mid post E F. apply inked_not_blank in X.
  assert (C : (exists q, a = pre ++ mid ++ q) \/ (exists q, b = q ++ mid ++ post) \/ In x mid).
  { clear - E. revert pre E. induction a as [|y a IH]; intros pre E.
    - destruct pre as [|z pre]; cbn [app] in E.
      + destruct mid as [|z mid]; [left; exists []; auto|]. inversion E; subst. right. right. left. auto.
      + inversion E; subst. right. left. exists pre. auto.
    - destruct pre as [|z pre]; cbn [app] in E.
      + assert (D : (exists q, y :: a = mid ++ q) \/ In x mid).
        { clear - E. change (y :: a ++ x :: b) with ((y :: a) ++ x :: b) in E. revert E. generalize (y :: a). clear. induction mid as [|m mid IH]; intros l E; [left; exists l; auto|].
          destruct l as [|z l]; cbn [app] in E; inversion E; subst; [right; left; auto|].
          destruct (IH l H1) as [(q & ->)|I]; [left; exists q; auto|right; right; auto]. }
        destruct D as [(q & D)|D]; [left; exists q; auto|right; right; auto].
      + inversion E; subst. destruct (IH pre H1) as [(q & ->)|[(q & ->)|I]]; [left; exists q; auto|right; left; exists q; auto|auto]. }
  destruct C as [(q & ->)|[(q & ->)|I]].
  - apply (A pre mid q); auto.
  - apply (B q mid post); auto.
  - exfalso. rewrite Forall_forall in F. apply X, F, I.
Qed.
Lemma few_one x : inked x -> few_blanks o [x].
Proof. intros X. apply (few_mid [] x []); auto using few_nil. Qed.

(** *** Groups of lines *)
Definition mid_lines (k : nat) (l : list str) : Prop := Forall nlf l /\ Forall (deep o k) l /\ few_blanks o l.
(** The lines from a start tag on: the first is not blank. *)
Definition head_lines (k : nat) (l : list str) : Prop := mid_lines k l /\ exists x r, l = x :: r /\ inked x.
Definition last_inked (l : list str) : Prop := exists ini x, l = ini ++ [x] /\ inked x.
Lemma mid_nil k : mid_lines k [].
Proof. split; [constructor|]. split; [constructor|apply few_nil]. Qed.
Lemma deep_app k a b : inked a -> deep o k a -> deep o k (a ++ b).
Proof.
  intros (c & I & _) [->|(x & ->)]; [destruct I|]. right. exists (x ++ b). rewrite app_assoc_reverse. reflexivity.
Qed.
Lemma indentation_S k : exists x, indentation o (S k) = indentation o k ++ x.
Proof.
  unfold indentation. destruct (insert_spaces o).
  - exists (repeat SP (tab_size o)). rewrite <- repeat_app. f_equal. lia.
  - exists [TAB]. change [TAB] with (repeat TAB 1). rewrite <- repeat_app. f_equal. lia.
Qed.
Lemma deep_S k l : deep o (S k) l -> deep o k l.
Proof.
  intros [->|(x & ->)]; [left; auto|]. destruct (indentation_S k) as (y & ->). right. exists (y ++ x). rewrite app_assoc_reverse. reflexivity.
Qed.
Lemma mid_S k l : mid_lines (S k) l -> mid_lines k l.
Proof. intros (A & B & C). split; auto. split; auto. eapply Forall_impl; [apply deep_S|auto]. Qed.
Lemma mid_head k a b : mid_lines k a -> head_lines k b -> mid_lines k (a ++ b).
Proof.
  intros (A1 & A2 & A3) ((B1 & B2 & B3) & x & r & -> & X). split; [apply Forall_app; auto|]. split; [apply Forall_app; auto|].
  apply few_mid; auto. eapply few_tail; eauto.
Qed.
Lemma nlf_app a b : nlf a -> nlf b -> nlf (a ++ b).
Proof. intros A B I. apply in_app_or in I as [I|I]; auto. Qed.
(** Lines that go on after the last one *)
Lemma glue k l m r : head_lines k l -> last_inked l -> nlf m -> mid_lines k r ->
  exists l', unl l' = unl l ++ m ++ unl r /\ head_lines k l' /\ (r = [] \/ last_inked r -> last_inked l').
Proof.
  intros ((A1 & A2 & A3) & x & q & E & X) (ini & la & -> & LA) M (R1 & R2 & R3).
  apply Forall_app in A1 as [A1 A1']. inversion A1' as [|? ? A1a _]; subst.
  apply Forall_app in A2 as [A2 A2']. inversion A2' as [|? ? A2a _]; subst.
  exists (ini ++ (la ++ m) :: r). split; [|split; [split|]].
  - rewrite !unl_app. cbn [unl flat_map]. rewrite app_nil_r, !app_assoc_reverse. cbn [app]. rewrite app_assoc_reverse. reflexivity.
  - split; [|split].
    + apply Forall_app. split; auto. constructor; auto. apply nlf_app; auto.
    + apply Forall_app. split; auto. constructor; auto. apply deep_app; auto.
    + apply few_mid; auto; [eapply few_app_l; eauto|apply inked_l; auto].
  - destruct ini as [|y ini]; cbn [app] in *; inversion E; subst; [eexists _, _; split; [reflexivity|apply inked_l; auto]|eauto].
  - intros [->|(i2 & l2 & -> & L2)]; [exists ini, (la ++ m); split; auto; apply inked_l; auto|].
    exists (ini ++ (la ++ m) :: i2), l2. split; auto. rewrite app_assoc_reverse. reflexivity.
Qed.

(** *** Text *)
Lemma bounded_less l : forall a b, a <= b -> bounded o b l -> bounded o a l.
Proof.
  induction l as [|y l IH]; intros a b Q H; auto. destruct y; [|auto]. cbn [bounded] in *. destruct H as [H1 H2].
  split; [eapply keep_less; eauto|eapply (IH _ (S b)); auto; lia].
Qed.
Lemma bounded_run pre mid post : forall n, bounded o n (pre ++ mid ++ post) -> blanks mid ->
  mid = [] \/ (preserve_new_lines o = true /\ forall w, max_preserve_new_lines o = Some w -> length mid <= w).
Proof.
  intros n B M. assert (B' : bounded o 0 (mid ++ post)).
  { revert n B. induction pre as [|x pre IH]; intros n B; cbn [app] in B; [eapply bounded_less; [|exact B]; lia|].
    cbn [bounded] in B. destruct x; [destruct B as [_ B]|]; eapply IH; eauto. }
  destruct mid as [|m mid]; [auto|]. right.
  assert (K : forall n, bounded o n ((m :: mid) ++ post) -> keep_empty_line o (n + length mid) = true).
  { clear - M. revert m M. induction mid as [|y mid IH]; intros m M n B; inversion M as [|? ? M1 M2]; subst m.
    - cbn [app bounded] in B. rewrite Nat.add_0_r. tauto.
    - change (([] :: y :: mid) ++ post) with ([] :: (y :: mid) ++ post) in B. cbn [bounded] in B.
      cbn [length]. rewrite Nat.add_succ_r. apply (IH y M2 (S n)). tauto. }
  specialize (K 0 B'). unfold keep_empty_line in K. apply andb_true_iff in K as [K1 K2]. split; auto.
  intros w W. rewrite W in K2. cbn [length]. lia.
Qed.
Lemma normal_inked k x : normal x -> x <> [] -> inked (wr o k x).
Proof.
  intros NX N. unfold wr. destruct x as [|b x]; [congruence|]. apply inked_r.
  exists b. split; [left; auto|]. assert (A : (b < 128)%N \/ (128 <= b)%N) by lia. destruct A as [A|A].
  - assert (H : decode (b :: x) = b :: decode x).
    { change (b :: x) with ([b] ++ x). rewrite decode_app by (apply ascii_one; lia). rewrite ascii_dec by (cbn; lia). reflexivity. }
    pose proof (normal_start _ _ _ NX H) as Bb. split; intros ->; discriminate.
  - unfold SP, TAB. lia.
Qed.
Lemma wr_blank k x : normal x -> blank (wr o k x) -> x = [].
Proof.
  intros N B. destruct x as [|b x]; auto. exfalso. eapply inked_not_blank; [|exact B]. apply normal_inked; auto. discriminate.
Qed.
Lemma chunks_unl k l : chunks o k l = unl (map (wr o k) l).
Proof. unfold chunks, unl. rewrite flat_map_concat_map, flat_map_concat_map, map_map. reflexivity. Qed.
Lemma chunk_lines k l : Forall normal l -> bounded o 0 l -> mid_lines k (map (wr o k) l).
Proof.
  intros F B. split; [|split].
  - apply Forall_forall. intros y I. apply in_map_iff in I as (x & <- & I). rewrite Forall_forall in F. apply wr_no_lf. auto.
  - apply Forall_forall. intros y I. apply in_map_iff in I as (x & <- & I). unfold wr. destruct x as [|b x].
    + destruct (indent_empty_lines o); [|left; auto]. right. exists []. rewrite app_nil_r, indentation_eq. reflexivity.
    + right. exists (b :: x). rewrite indentation_eq. reflexivity.
  - intros pre mid post E M. apply map_eq_app in E as (l1 & l2 & -> & E1 & E). apply map_eq_app in E as (l3 & l4 & -> & E3 & E4).
    subst mid. destruct (bounded_run l1 l3 l4 0 B) as [->|R].
    + apply Forall_app in F as [_ F]. apply Forall_app in F as [F _]. clear - F M. induction l3 as [|x l IH]; [constructor|].
      inversion F; inversion M; subst. constructor; [eapply wr_blank; eauto|apply IH; auto].
    + left. reflexivity.
    + right. rewrite map_length. exact R.
Qed.
Lemma text_lines_spec text k : Utf8 text ->
  exists m r, beautify_text o text k = m ++ unl r /\ nlf m /\ mid_lines k r /\ (~ In LF text -> r = []).
Proof.
  intros U. destruct (contains_byte LF text) eqn:C.
  - destruct (bt_lines o k text U C) as (l & E & F & B). exists [], (map (wr o k) l). rewrite E, chunks_unl.
    split; auto. split; [intros []|]. split; [apply chunk_lines; auto|]. intros N. exfalso. apply N.
    unfold contains_byte in C. apply existsb_exists in C as (b & I & Q). apply N.eqb_eq in Q. subst b. auto.
  - exists (ln text), []. split; [unfold beautify_text; rewrite C, app_nil_r; reflexivity|].
    split; [apply ln_no_lf; auto|]. split; [apply mid_nil|auto].
Qed.

(** *** Start tags *)
Lemma solid k l : l <> [] -> Forall (fun x => nlf x /\ deep o k x /\ inked x) l -> head_lines k l /\ last_inked l.
Proof.
  intros N F. assert (G : few_blanks o l).
  { clear N. induction F as [|x l (_ & _ & X) F IH]; [apply few_nil|]. apply (few_mid [] x l); auto using few_nil. }
  rewrite Forall_forall in F. split; [split; [split; [|split]|]|].
  - apply Forall_forall. intros x I. apply F; auto.
  - apply Forall_forall. intros x I. apply F; auto.
  - auto.
  - destruct l as [|x l]; [congruence|]. exists x, l. split; auto. apply F. left. auto.
  - destruct (exists_last N) as (ini & x & ->). exists ini, x. split; auto. apply F. apply in_or_app. right. left. auto.
Qed.
Lemma indentation_nlf k : nlf (indentation o k).
Proof. rewrite <- indentation_eq. apply indent_no_lf. Qed.
Lemma deep_ind k x : deep o k (indentation o k ++ x).
Proof. right. exists x. reflexivity. Qed.
Definition names_ok (n : node) : Prop :=
  (forall x, n_tag n = Some x -> nlf x) /\ (forall x, In x (attribute_names n) -> nlf x /\ inked x).
Lemma bs_nlf s : forallb (fun b => negb (N.eqb b LF)) (bs s) = true -> nlf (bs s).
Proof. intros H I. rewrite forallb_forall in H. specialize (H _ I). rewrite N.eqb_refl in H. discriminate. Qed.
Lemma attr_text_nlf n x : names_ok n -> one_line_values n -> In x (attribute_names n) -> nlf (attr_text n x) /\ inked (attr_text n x).
Proof.
  intros [_ N] V I. destruct (N x I) as [A B]. unfold attr_text. split; [|apply inked_l; auto]. apply nlf_app; auto.
  destruct (attr_get x (n_attrs n)) as [[[v|] off]|] eqn:E; [|intros []|intros []].
  apply nlf_app; [apply bs_nlf; reflexivity|]. eapply V; eauto.
Qed.
Lemma by_order_in n x : In x (attribute_names_by_order n) -> In x (attribute_names n).
Proof.
  unfold attribute_names_by_order, attribute_names. intros X. apply in_map_iff in X as (y & <- & Y).
  apply in_map. eapply Permutation_in; [symmetry; apply sort_perm|auto].
Qed.
Lemma lt_inked s : inked (bs "<" ++ s).
Proof. exists LT. split; [left; reflexivity|]. split; discriminate. Qed.
Lemma start_lines n tag k s : no_tab_wrap o -> names_ok n -> one_line_values n -> n_tag n = Some tag -> start_text o k n tag s ->
  exists l, LF :: s = unl l /\ head_lines k l /\ last_inked l.
Proof.
  intros T NM V E S. pose proof (proj1 NM tag E) as NT. destruct S as [[F ->]|[F ->]].
  - exists [one_line o k n tag]. split; [cbn [unl flat_map]; rewrite app_nil_r; reflexivity|]. apply solid; [discriminate|].
    constructor; [|constructor]. unfold one_line. split; [|split; [apply deep_ind|]].
    + apply nlf_app; [apply indentation_nlf|]. apply nlf_app; [apply bs_nlf; reflexivity|]. apply nlf_app; auto. apply nlf_app.
      * intros I. apply in_flat_map in I as (x & I & J). apply by_order_in in I. apply attr_text_nlf in I; auto.
        destruct I as [I _]. destruct J as [J|J]; [discriminate|auto].
      * destruct (is_self_closing n); apply bs_nlf; reflexivity.
    + apply inked_r. apply lt_inked.
  - exists ((indentation o k ++ bs "<" ++ tag) :: map (fun x => attr_indentation o k ++ attr_text n x) (attribute_names_by_order n) ++
      [indentation o k ++ (if is_self_closing n then bs "/>" else bs ">")]).
    split.
    { unfold many_lines. cbn [unl flat_map]. change (flat_map (fun l : list N => LF :: l)) with unl. rewrite unl_app. cbn [unl flat_map].
      rewrite app_nil_r. cbn [app]. rewrite !app_assoc_reverse. do 4 f_equal.
      unfold unl. rewrite flat_map_concat_map, (flat_map_concat_map _ (map _ _)), map_map. cbn [app]. reflexivity. }
    apply solid; [discriminate|]. constructor.
    + split; [apply nlf_app; [apply indentation_nlf|apply nlf_app; auto; apply bs_nlf; reflexivity]|].
      split; [apply deep_ind|apply inked_r; apply lt_inked].
    + apply Forall_app. split.
      * apply Forall_forall. intros y I. apply in_map_iff in I as (x & <- & I). apply by_order_in in I.
        apply attr_text_nlf in I; auto. destruct I as [I1 I2]. split; [|split; [|apply inked_r; auto]].
        -- apply nlf_app; auto. unfold attr_indentation. apply nlf_app; [apply indentation_nlf|].
           assert (W : wrap_line_length o <> None) by (intros W; apply F; unfold fits; rewrite W; exact I).
           destruct T as [T|[T|T]]; [|congruence|]; rewrite T.
           ++ destruct (wrap_attributes_indent_size o); intros I; apply repeat_spec in I; discriminate.
           ++ destruct (insert_spaces o); [intros I; apply repeat_spec in I; discriminate|intros []].
        -- unfold attr_indentation. rewrite app_assoc_reverse. apply deep_ind.
      * constructor; [|constructor]. split; [|split; [apply deep_ind|]].
        -- apply nlf_app; [apply indentation_nlf|]. destruct (is_self_closing n); apply bs_nlf; reflexivity.
        -- apply inked_r. destruct (is_self_closing n); exists GT; (split; [cbn; auto|]; split; discriminate).
Qed.

(** *** Elements *)
Variable t : str.
Lemma contains_in b s : contains_byte b s = true <-> In b s.
Proof.
  unfold contains_byte. rewrite existsb_exists. split; [intros (x & I & E); apply N.eqb_eq in E; subst; auto|].
  intros I. exists b. split; auto. apply N.eqb_refl.
Qed.
Lemma kept_wrap n k tag inner : NoDup (map fst (n_attrs n)) -> n_tag n = Some tag -> n_ets n <> None ->
  (kept_short o k n tag inner /\ node_attrs_is_wrap o n k = false /\ node_is_wrap o n k inner = false) \/
  (~ kept_short o k n tag inner /\ node_is_wrap o n k inner = true).
Proof.
  intros ND T E. unfold kept_short, node_is_wrap. pose proof (wrap_fits o n k tag ND T) as W.
  rewrite T, (left_len o n k tag ND T). destruct (contains_byte LF inner) eqn:C.
  { right. split; auto. intros [H _]. apply H. apply contains_in. auto. }
  cbn [orb]. assert (C' : ~ In LF inner) by (intros I; apply contains_in in I; congruence).
  assert (LEN : length (one_line o k n tag ++ inner ++ bs "</" ++ tag ++ bs ">") = length (one_line o k n tag) + length inner + 2 + length tag + 1).
  { rewrite !app_length. change (length (bs "</")) with 2. change (length (bs ">")) with 1. lia. }
  rewrite LEN. unfold fits in *. destruct (wrap_line_length o) as [w|].
  - destruct (w <? _) eqn:L.
    + right. split; auto. intros (_ & _ & H). specialize (H w eq_refl). lia.
    + left. destruct W as [[W1 W2]|[W1 W2]]; [|lia]. split; [|auto]. split; auto. split; auto. intros w' Q. inversion Q. subst. lia.
  - left. destruct W as [[W1 W2]|[W1 W2]]; [|tauto]. split; [|auto]. split; auto. split; auto. intros w' Q. discriminate.
Qed.
Lemma node_text n k x e : fnode t n -> beautify_node t o n k = Ok x -> n_ets n = Some e ->
  exists tag st s ch close, n_tag n = Some tag /\ start_text o k n tag st /\ n_ste n = Some s /\
    children_text t o k e s (n_children n) = Ok ch /\ Utf8 (sub t s e) /\
    x = st ++ (ch ++ leaf_text o n k s e (sub t s e)) ++ close ++ bs "</" ++ tag ++ bs ">" /\
    ((kept_short o k n tag (sub t s e) /\ node_is_wrap o n k (sub t s e) = false /\ close = []) \/
     (~ kept_short o k n tag (sub t s e) /\ node_is_wrap o n k (sub t s e) = true /\ close = LF :: indentation o k)).
Proof.
  intros F H E. rewrite beautify_node_eq in H. apply bind_ok in H as (tag & T & H).
  destruct (n_tag n) as [tag'|] eqn:Tn; [|discriminate]. apply Ok_inj in T. subst tag'. rewrite E in H.
  apply bind_ok in H as (s & S & H). apply bind_ok in H as (ch & C & H). apply bind_ok in H as (inner & I & H).
  apply Ok_inj in H. destruct (n_ste n) as [s'|] eqn:Es; [|discriminate]. apply Ok_inj in S. subst s'.
  destruct (fn_ends _ _ F e E) as (s' & Es' & Bs & Be & L & _). assert (s' = s) by congruence. subst s'.
  destruct (slice_bd t s e Bs Be L) as [Q1 Q2]. rewrite Q1 in I. apply Ok_inj in I. subst inner.
  pose proof (fn_keys _ _ F) as ND. pose proof (wrap_fits o n k tag ND Tn) as W.
  pose proof (kept_wrap n k tag (sub t s e) ND Tn ltac:(congruence)) as K. set (inner := sub t s e) in *.
  unfold open_text in H. rewrite format_attrs_eq, ?indentation_eq in H.
  destruct W as [[W Fi]|[W Fi]]; rewrite W in H; cbn [orb] in H.
  - exists tag, (one_line o k n tag), s, ch, (if node_is_wrap o n k inner then LF :: indentation o k else []).
    split; auto. split; [left; auto|]. split; auto. split; auto. split; auto. split.
    + subst x. unfold one_line, is_self_closing. rewrite E. destruct (node_is_wrap o n k inner); rewrite ?app_assoc_reverse; reflexivity.
    + destruct K as [(K1 & K2 & K3)|(K1 & K2)]; [left; rewrite K3; auto|right; rewrite K2; auto].
  - exists tag, (many_lines o k n tag), s, ch, (LF :: indentation o k).
    split; auto. split; [right; auto|]. split; auto. split; auto. split; auto. split.
    + subst x. unfold many_lines, is_self_closing. rewrite E, ?app_assoc_reverse. cbn [app]. rewrite ?app_assoc_reverse. reflexivity.
    + destruct K as [(K1 & K2 & K3)|(K1 & K2)]; [congruence|right; auto].
Qed.

Lemma single_text n k x : fnode t n -> beautify_node t o n k = Ok x -> n_ets n = None ->
  exists tag, n_tag n = Some tag /\ start_text o k n tag x.
Proof.
  intros F H E. rewrite beautify_node_eq in H. apply bind_ok in H as (tag & T & H).
  destruct (n_tag n) as [tag'|] eqn:Tn; [|discriminate]. apply Ok_inj in T. subst tag'. rewrite E in H. apply Ok_inj in H.
  exists tag. split; auto. unfold open_text in H. rewrite format_attrs_eq, ?indentation_eq in H.
  destruct (wrap_fits o n k tag (fn_keys _ _ F) Tn) as [[W Fi]|[W Fi]]; rewrite W in H; [left|right]; (split; [auto|]); subst x;
    unfold one_line, many_lines, is_self_closing; rewrite E, ?app_assoc_reverse; reflexivity.
Qed.
Definition tame (n : node) : Prop := fnode t n /\ names_ok n /\ one_line_values n.
Definition node_lines (n : node) : Prop := forall k x, beautify_node t o n k = Ok x ->
  exists l, LF :: x = unl l /\ head_lines k l /\ last_inked l.
(** The text after a child and the children after it, as the lines that go on *)
Lemma children_lines k e : Bd t e -> forall l prev x, l <> [] -> Forall node_lines l -> Forall (fnode t) l ->
  Bd t prev -> chain prev l e -> children_text t o k e prev l = Ok x ->
  exists m r, x = m ++ unl r /\ nlf m /\ mid_lines (S k) r /\ (~ In LF (sub t prev e) -> last_inked r).
Proof.
  intros Be. induction l as [|c r IH]; intros prev x NE NL F Bp C H; [congruence|]. clear NE.
  inversion NL as [|? ? Nc Nr]; subst. inversion F as [|? ? Fc Fr]; subst. cbn [chain] in C. destruct C as (C1 & C2 & C3).
  pose proof (fn_start _ _ Fc) as Fs. pose proof (fn_end _ _ Fc) as Fe.
  cbn [children_text] in H. apply bind_ok in H as (tx & T & H). apply bind_ok in H as (y & Y & H). apply bind_ok in H as (rest & R & H).
  apply Ok_inj in H. destruct (slice_bd t prev (n_start c) Bp Fs C1) as [Q1 U1]. rewrite Q1 in T. apply Ok_inj in T. subst tx.
  destruct (text_lines_spec _ (S k) U1) as (m & r1 & E1 & M & R1 & _). destruct (Nc _ _ Y) as (ly & Ey & Hy & Ly).
  assert (REST : exists m2 r2, rest = m2 ++ unl r2 /\ nlf m2 /\ mid_lines (S k) r2 /\ (~ In LF (sub t (n_end c) e) -> r2 = [] \/ last_inked r2)).
  { destruct r as [|c2 r].
    - cbn [chain] in C3. destruct (slice_bd t (n_end c) e Fe Be C3) as [Q2 U2]. rewrite Q2 in R. cbn [bind] in R. apply Ok_inj in R. subst rest.
      destruct (text_lines_spec _ (S k) U2) as (m2 & r2 & E2 & M2 & R2 & Z). exists m2, r2. repeat (split; [assumption|]). intros Q. left. auto.
    - destruct (IH (n_end c) rest) as (m2 & r2 & E2 & M2 & R2 & Z); auto; [discriminate|]. exists m2, r2. repeat (split; [assumption|]). intros Q. right. auto. }
  destruct REST as (m2 & r2 & E2 & M2 & R2 & Z).
  destruct (glue (S k) ly m2 r2 Hy Ly M2 R2) as (l' & El & Hl & Ll). exists m, (r1 ++ l'). subst x rest. rewrite E1.
  split; [|split; [auto|split; [apply mid_head; auto|]]].
  - rewrite unl_app, El, <- Ey. cbn [app]. rewrite !app_assoc_reverse. reflexivity.
  - intros N. assert (LE : n_end c <= e) by (clear - C3; revert C3; generalize (n_end c); induction r as [|d r IHr]; cbn [chain]; intros a; [auto|]; intros (A & B & D); apply IHr in D; lia).
    destruct Ll as (ini & la & -> & LA).
    + apply Z. intros I. apply N. assert (LT' : prev <= n_end c) by lia. pose proof (sub_split t prev (n_end c) e LT' LE) as SS.
      rewrite SS. apply in_or_app. auto.
    + exists (r1 ++ ini), la. rewrite app_assoc_reverse. auto.
Qed.
(** What is in an element with an end tag *)
Lemma inside_lines n k s e ch : fnode t n -> n_ets n = Some e -> n_ste n = Some s -> Forall node_lines (n_children n) ->
  Forall (fnode t) (n_children n) -> children_text t o k e s (n_children n) = Ok ch ->
  exists m r, ch ++ leaf_text o n k s e (sub t s e) = m ++ unl r /\ nlf m /\ mid_lines (S k) r /\
    (node_is_wrap o n k (sub t s e) = false -> r = [] \/ last_inked r) /\
    (n_children n = [] -> if node_is_wrap o n k (sub t s e) then m = [] else r = []).
Proof.
  intros F E Es NL FC C. destruct (fn_ends _ _ F e E) as (s' & Es' & Bs & Be & L & _ & _ & CH). assert (s' = s) by congruence. subst s'.
  destruct (slice_bd t s e Bs Be L) as [_ U]. set (inner := sub t s e) in *.
  assert (NW : node_is_wrap o n k inner = false -> ~ In LF inner).
  { unfold node_is_wrap. intros Q I. apply contains_in in I. rewrite I in Q. discriminate. }
  destruct (n_children n) as [|c r] eqn:K.
  - cbn [children_text] in C. apply Ok_inj in C. subst ch. cbn [app]. unfold leaf_text. rewrite K. cbn [length Nat.eqb andb].
    destruct (s =? e) eqn:Q; cbn [negb].
    { exists [], []. split; auto. split; [intros []|]. split; [apply mid_nil|]. split; auto. intros _. destruct (node_is_wrap o n k inner); auto. }
    fold (leaf o k (node_is_wrap o n k inner) inner). destruct (node_is_wrap o n k inner) eqn:W.
    + destruct (leaf_lines o k inner U) as (l & (L1 & L2 & _) & L3). exists [], (map (wr o (S k)) l). cbn [app].
      rewrite L3, chunks_unl. split; auto. split; [intros []|]. split; [apply chunk_lines; auto|]. split; [discriminate|auto].
    + unfold leaf. cbn [andb]. destruct (text_lines_spec inner (S k) U) as (m & r & E1 & M & R & Z). exists m, r.
      split; auto. split; auto. split; auto. 
  - destruct (children_lines k e Be (c :: r) s ch) as (m & r' & E1 & M & R & Z); auto; [discriminate|].
    exists m, r'. unfold leaf_text. rewrite K. cbn [length Nat.eqb andb]. rewrite app_nil_r. split; auto. split; auto. split; auto.
    split; [|discriminate]. intros Q. right. apply Z. apply NW. auto.
Qed.
Hypothesis NT : no_tab_wrap o.
Lemma node_lines_all n : (forall m, In m (rendered n) -> tame m) -> node_lines n.
Proof.
  revert n. apply (node_induction (fun n => (forall m, In m (rendered n) -> tame m) -> node_lines n)). intros n IH A k x H.
  assert (TN : tame n) by (apply A; rewrite rendered_eq; left; auto). destruct TN as (FN & NM & V).
  destruct (n_ets n) as [e|] eqn:E.
  - assert (TC : forall c, In c (n_children n) -> forall m, In m (rendered c) -> tame m).
    { intros c I m J. apply A. rewrite rendered_eq, E. right. apply in_flat_map. eauto. }
    destruct (node_text n k x e FN H E) as (tag & st & s & ch & close & T & S & Es & C & U & -> & CL).
    destruct (start_lines n tag k st NT NM V T S) as (ls & ELS & H1 & H2).
    destruct (inside_lines n k s e ch FN E Es) as (m & r & EQ & M & R & W & _); auto.
    { rewrite Forall_forall in *. intros c I. apply IH; auto. apply TC. auto. }
    { apply Forall_forall. intros c I. apply (TC c I). rewrite rendered_eq. left. auto. }
    rewrite EQ. destruct (glue k ls m r H1 H2 M (mid_S _ _ R)) as (l' & EL & H3 & H4).
    assert (NTag : nlf tag) by (apply (proj1 NM); auto).
    assert (EN : nlf (bs "</" ++ tag ++ bs ">")) by (apply nlf_app; [apply bs_nlf; reflexivity|]; apply nlf_app; [auto|apply bs_nlf; reflexivity]).
    assert (EI : inked (bs "</" ++ tag ++ bs ">")) by (exists LT; split; [left; reflexivity|]; split; discriminate).
    destruct CL as [(K1 & K2 & ->)|(K1 & K2 & ->)].
    + destruct (glue k l' (bs "</" ++ tag ++ bs ">") [] H3 (H4 (W K2)) EN (mid_nil k)) as (l2 & EL2 & H5 & H6).
      exists l2. split; [|split; auto]. rewrite EL2, EL, <- ELS. cbn [unl flat_map app]. rewrite ?app_nil_r, ?app_assoc_reverse. reflexivity.
    + exists (l' ++ [indentation o k ++ bs "</" ++ tag ++ bs ">"]).
      destruct (solid k [indentation o k ++ bs "</" ++ tag ++ bs ">"]) as [G1 G2]; [discriminate| |].
      { constructor; [|constructor]. split; [apply nlf_app; [apply indentation_nlf|auto]|]. split; [apply deep_ind|apply inked_r; auto]. }
      split; [|split].
      * rewrite unl_app, EL, <- ELS. cbn [unl flat_map app]. rewrite ?app_nil_r, ?app_assoc_reverse. cbn [app]. reflexivity.
      * destruct H3 as (H3 & y & q & -> & Y). split; [apply mid_head; auto|]. exists y, (q ++ [indentation o k ++ bs "</" ++ tag ++ bs ">"]). auto.
      * exists l', (indentation o k ++ bs "</" ++ tag ++ bs ">"). split; auto. apply inked_r. auto.
  - destruct (single_text n k x FN H E) as (tag & T & S). eapply start_lines; eauto.
Qed.
Lemma roots_lines l : forall x, (forall m, In m (flat_map rendered l) -> tame m) -> beautify_roots t o l = Ok x ->
  exists ls, x = join [LF] ls /\ mid_lines 0 ls.
Proof.
  assert (G : forall x, (forall m, In m (flat_map rendered l) -> tame m) -> beautify_roots t o l = Ok x ->
     (l = [] /\ x = []) \/ (exists ls, LF :: x = unl ls /\ head_lines 0 ls /\ last_inked ls)).
  { induction l as [|n l IH]; intros x A H; cbn [beautify_roots] in H; [left; apply Ok_inj in H; auto|]. right.
    apply bind_ok in H as (y & Y & H). apply bind_ok in H as (z & Z & H). apply Ok_inj in H. subst x.
    destruct (node_lines_all n) with (k := 0) (x := y) as (ls & E & H1 & H2); auto.
    { intros m M. apply A. cbn [flat_map]. apply in_or_app. auto. }
    destruct (IH z) as [(-> & ->)|(lz & Ez & (Hz & f & r & -> & Fi) & Lz)]; auto.
    { intros m M. apply A. cbn [flat_map]. apply in_or_app. auto. }
    - rewrite app_nil_r. eauto.
    - destruct Hz as (Hz1 & Hz2 & Hz3). inversion Hz1; inversion Hz2; subst.
      destruct (glue 0 ls f r) as (l' & EL & HL & LL); auto; [split; [auto|split; [auto|eapply few_tail; eauto]]|].
      exists l'. split; [|split; [auto|]].
      + rewrite EL, <- E. cbn [unl flat_map app] in Ez. injection Ez as ->. cbn [app]. reflexivity.
      + apply LL. destruct r as [|y2 r]; [auto|]. right. destruct Lz as (ini & la & Q & LA). destruct ini as [|i ini]; [discriminate|].
        cbn [app] in Q. injection Q as -> Q. exists ini, la. auto. }
  intros x A H. destruct (G x A H) as [(_ & ->)|(ls & E & (M & f & r & -> & Fi) & _)]; [exists []; split; auto; apply mid_nil|].
  exists (f :: r). split; auto. rewrite unl_join in E by discriminate. injection E as ->. reflexivity.
Qed.
End Lines.

(** ** Names in parsed documents *)
Lemma encode_inked l c : forallb scalar (c :: l) = true -> is_uspace c = false -> inked (encode (c :: l)).
Proof.
  intros S W. assert (Sc : scalar c = true) by (cbn in S; apply andb_true_iff in S; tauto).
  destruct (encode (c :: l)) as [|b s] eqn:E.
  { exfalso. pose proof (encode1_len c). apply (f_equal (@length N)) in E. cbn [encode flat_map] in E. rewrite app_length in E. cbn [length] in E. lia. }
  exists b. split; [left; auto|]. assert (A : (b < 128)%N \/ (128 <= b)%N) by lia. destruct A as [A|A].
  - assert (b = c).
    { assert (H : decode (b :: s) = b :: decode s).
      { change (b :: s) with ([b] ++ s). rewrite decode_app by (apply ascii_one; lia). rewrite ascii_dec by (cbn; lia). reflexivity. }
      rewrite <- E in H at 1. rewrite decode_encode in H by auto. injection H as -> _. reflexivity. }
    subst b. split; intros ->; discriminate.
  - unfold SP, TAB. lia.
Qed.
Lemma class_nlf (p : N -> bool) l : p LF = false -> forallb p l = true -> forallb scalar l = true -> nlf (encode l).
Proof.
  intros P F S. apply encode_no_lf; auto. intros I. rewrite forallb_forall in F. rewrite (F _ I) in P. discriminate.
Qed.
Lemma attr_in_ok U t l : Forall (token_shape U t true) l -> forall ks, (forall k, In k ks -> In k l) ->
  forall x a, attr_in t x ks = Some a -> nlf x /\ inked x.
Proof.
  intros SH ks. rewrite Forall_forall in SH. induction ks as [|k ks IH]; intros I x a; cbn [attr_in]; [discriminate|].
  destruct (attr_in t x ks) eqn:E; [intros Q; eapply IH; eauto; intros; apply I; cbn; auto|].
  destruct (_ && _) eqn:Q; [|discriminate]. intros _. apply andb_true_iff in Q as [Q1 Q2].
  apply token_eqb_eq in Q1. apply beq_eq in Q2. subst x.
  pose proof (SH k (I k (or_introl eq_refl))) as S1. unfold token_shape in S1. rewrite Q1 in S1.
  destruct S1 as (c & N & C1 & C2 & C3 & _). unfold tk_text. rewrite C2. split; [apply (class_nlf attr_char); auto|].
  destruct c as [|c l']; [congruence|]. apply encode_inked; auto. cbn [forallb] in C3. apply andb_true_iff in C3 as [C3 _].
  unfold attr_char in C3. destruct (is_uspace c); [discriminate|auto].
Qed.
Lemma name_lf U : name_char U LF = false.
Proof. reflexivity. Qed.
Lemma parsed_names U t cs void roots : Utf8 t -> parse U t cs void = Ok roots -> Forall names_ok (doc_nodes roots).
Proof.
  intros HU H. apply Forall_forall. intros n I.
  destruct (parse_tokens _ _ _ _ _ HU H) as (l & T).
  destruct (doc_ok _ _ _ _ _ _ HU T H) as (_ & F & _). rewrite Forall_forall in F. destruct (F n I).
  pose proof (doc_shapes _ _ _ _ HU T) as SH. split.
  - intros x X. destruct ok_tag as (p & W & M). rewrite X in M. destruct M as (e & M1 & ->).
    apply elem_name_text in M1; auto. destruct M1 as (c & w & M1 & M2 & M3 & M4 & _). rewrite M2.
    apply (class_nlf (name_char U)); auto using name_lf. cbn [forallb]. rewrite M4, andb_true_r. unfold name_char. rewrite M3. reflexivity.
  - intros x X. destruct ok_start as (pre & op & ks & post & B1 & B2 & B3 & B4 & B5 & B6 & B7 & B8 & B9).
    assert (G : exists a, attr_get x (n_attrs n) = Some a).
    { clear - X. unfold attribute_names in X. induction (n_attrs n) as [|[k a] m IH]; cbn [map fst attr_get In] in *; [contradiction|].
      destruct (beq x k) eqn:B; [eauto|]. destruct X as [->|X]; [rewrite beq_refl in B; discriminate|auto]. }
    destruct G as (a & A). rewrite B8 in A. revert A. apply (attr_in_ok U t l); auto. intros k K. rewrite B1, in_app_iff. cbn. rewrite in_app_iff. auto.
Qed.
Lemma rendered_all (P : node -> Prop) roots : Forall (all_nodes P) roots -> forall m, In m (flat_map rendered roots) -> P m.
Proof.
  intros F m I. apply in_flat_map in I as (r & R & I). rewrite Forall_forall in F. specialize (F r R). clear R. revert r F I.
  apply (node_induction (fun r => all_nodes P r -> In m (rendered r) -> P m)). intros n IH A I. inversion A as [? A1 A2]; subst.
  rewrite rendered_eq in I. destruct I as [->|I]; auto. destruct (n_ets n); [|destruct I]. apply in_flat_map in I as (c & C & I).
  rewrite Forall_forall in *. eapply IH; eauto.
Qed.
Lemma depth_rendered n k m : at_depth n k m -> forall x, In x (rendered m) -> In x (rendered n).
Proof.
  induction 1 as [n|n c k m E I D IH]; auto. intros x X. rewrite rendered_eq. right. destruct (n_ets n); [|congruence].
  apply in_flat_map. eauto.
Qed.

(** ** C68 *)
Section Doc.
Variable U : unicode.
Variable d : textdoc.
Variable o : format_options.
Variable cs : bool.
Variable e : text_edit.
Variable v : str.
Variable roots : list node.
Hypothesis HD : textdoc_ok d.
Hypothesis H : format U d None o cs = Ok [e].
Hypothesis B : body (d_text d) v.
Hypothesis P : parse U v cs html5_void = Ok roots.
Lemma whole_parts : Utf8 v /\ exists x, beautify_roots v o roots = Ok x /\ (te_text e = x \/ te_text e = x ++ [LF]).
Proof.
  assert (Uv : Utf8 v) by (destruct B as (w & _ & _ & Q & _); auto). split; auto.
  pose proof H as H'. unfold format, format_value in H'. apply bind_ok in H' as (x & X & H'). apply Ok_inj in H'. injection H' as <-.
  cbn [te_text reindent Nat.ltb Nat.leb]. assert (E : trim_left (d_text d) = v).
  { eapply body_det; [apply trim_left_body; apply HD|exact B]. }
  rewrite E in X. unfold html_beautify in X. rewrite P in X. cbn [bind] in X. apply bind_ok in X as (y & Y & X). apply Ok_inj in X.
  exists y. split; auto. destruct (_ && _); auto.
Qed.
Hypothesis V : forall m, In m (flat_map rendered roots) -> one_line_values m.
Lemma whole_tame : forall m, In m (flat_map rendered roots) -> tame v m.
Proof.
  destruct whole_parts as [Uv _]. intros m M. split; [|split; auto].
  - eapply rendered_all; [|exact M]. eapply parsed_fnode; eauto.
  - eapply rendered_all; [|exact M]. apply roots_of_doc. eapply parsed_names; eauto.
Qed.
End Doc.

(** The new text of a document is lines, none of which has a line feed in it, without more blank
    lines in a row than the options allow; a line feed may follow the last of them. *)
Theorem C68_blank_lines : forall U d o cs e v roots, textdoc_ok d -> format U d None o cs = Ok [e] ->
  body (d_text d) v -> parse U v cs html5_void = Ok roots -> no_tab_wrap o ->
  (forall m, In m (flat_map rendered roots) -> one_line_values m) ->
  exists ls, (te_text e = join [LF] ls \/ te_text e = join [LF] ls ++ [LF]) /\
    Forall (fun l => ~ In LF l) ls /\ few_blanks o ls.
Proof.
  intros U d o cs e v roots HD H B P T V. destruct (whole_parts _ _ _ _ _ _ _ HD H B P) as (Uv & x & X & E).
  destruct (roots_lines o v T roots x (whole_tame _ _ _ _ _ _ _ HD H B P V) X) as (ls & -> & L1 & _ & L3).
  exists ls. auto.
Qed.
Print Assumptions C68_blank_lines.

(** Every element with an end tag that is written, [k] levels below its root: its start tag; the
    text behind that on the same line; further lines, indented at least one level more or empty; and
    its end tag, right behind them if the element is short enough, and otherwise on a line of its own,
    indented [k] levels. An element without children has all its text on one line if it is short
    enough, and otherwise none on the line of the start tag. *)
Theorem C68_elements : forall U d o cs e v roots r k m s f, textdoc_ok d -> format U d None o cs = Ok [e] ->
  body (d_text d) v -> parse U v cs html5_void = Ok roots -> no_tab_wrap o ->
  (forall m, In m (flat_map rendered roots) -> one_line_values m) ->
  In r roots -> at_depth r k m -> n_ste m = Some s -> n_ets m = Some f ->
  exists tag pre st first ls close post, n_tag m = Some tag /\ start_text o k m tag st /\
    te_text e = pre ++ st ++ first ++ unl ls ++ close ++ bs "</" ++ tag ++ bs ">" ++ post /\
    ~ In LF first /\ Forall (fun l => ~ In LF l) ls /\ Forall (deep o (S k)) ls /\
    ((kept_short o k m tag (sub v s f) /\ close = [] /\ (n_children m = [] -> ls = [])) \/
     (~ kept_short o k m tag (sub v s f) /\ close = LF :: indentation o k /\ (n_children m = [] -> first = []))).
Proof.
  intros U d o cs e v roots r k m s f HD H B P T V I D Es Ef. destruct (whole_parts _ _ _ _ _ _ _ HD H B P) as (Uv & x & X & E).
  pose proof (whole_tame _ _ _ _ _ _ _ HD H B P V) as TA.
  assert (IR : forall y, In y (rendered m) -> In y (flat_map rendered roots)).
  { intros y Y. apply in_flat_map. exists r. split; auto. eapply depth_rendered; eauto. }
  assert (M : exists pre y post, beautify_node v o m k = Ok y /\ x = pre ++ y ++ post).
  { clear E TA IR V P H B. revert x X I. induction roots as [|r' l IH]; intros x X I; [contradiction|]. cbn [beautify_roots] in X.
    apply bind_ok in X as (y1 & Y1 & X). apply bind_ok in X as (y2 & Y2 & X). apply Ok_inj in X. subst x. destruct I as [->|I].
    - destruct (depth_text v o r k m D 0 y1 Y1) as (pre & z & post & Z & -> & _). rewrite Nat.add_0_r in Z.
      exists pre, z, (post ++ y2). split; auto. rewrite ?app_assoc_reverse. reflexivity.
    - destruct (IH _ Y2 I) as (pre & z & post & Z & ->). exists (y1 ++ pre), z, post. split; auto. rewrite ?app_assoc_reverse. reflexivity. }
  destruct M as (pre & y & post & Y & ->).
  destruct (TA m) as (FM & NM & VM); [apply IR; rewrite rendered_eq; left; auto|].
  destruct (node_text o v m k y f FM Y Ef) as (tag & st & s' & ch & close & Tg & S & Es' & C & Us & -> & CL).
  assert (s' = s) by congruence. subst s'.
  destruct (inside_lines o v m k s f ch FM Ef Es) as (first & ls & EQ & M & (R1 & R2 & _) & _ & W); auto.
  { apply Forall_forall. intros c J. apply node_lines_all; auto. intros z Z. apply TA, IR. rewrite rendered_eq, Ef. right.
    apply in_flat_map. eauto. }
  { apply Forall_forall. intros c J. apply TA, IR. rewrite rendered_eq, Ef. right. apply in_flat_map. exists c. split; auto.
    rewrite rendered_eq. left. auto. }
  assert (TX : exists post', te_text e = (pre ++ (st ++ (ch ++ leaf_text o m k s f (sub v s f)) ++ close ++ bs "</" ++ tag ++ bs ">") ++ post')).
  { destruct E as [->| ->]; [exists post; auto|]. exists (post ++ [LF]). rewrite ?app_assoc_reverse. reflexivity. }
  destruct TX as (post' & TX). rewrite EQ in TX. exists tag, pre, st, first, ls, close, post'.
  split; auto. split; auto. split; [rewrite TX, ?app_assoc_reverse; reflexivity|]. split; auto. split; auto. split; auto.
  destruct CL as [(K1 & K2 & K3)|(K1 & K2 & K3)]; rewrite K2 in W; [left|right]; auto.
Qed.
Print Assumptions C68_elements.

(** ** Examples: the hypotheses are met, and what the theorems leave out *)
Definition ldoc : str := text ["<div>"; "<p>"; "one"; ""; ""; ""; "two"; "</p>"; ""; ""; ""; "<b  class=x>y  z</b></div>"]%string.
Definition ldocx := utf16_doc ldoc.
Lemma ldoc_ok : textdoc_ok ldocx.
Proof. apply C27_contract, ascii_utf8. reflexivity. Qed.
Definition lopt := mkFmt 2 true false (Some 120) None true (Some 1) true.
Definition lroots : list node := match parse demo_unicode ldoc false html5_void with Ok l => l | _ => [] end.
Example lines_case : format demo_unicode ldocx None lopt false =
  Ok [mkEdit (mkRange (mkPos 0 0) (mkPos 11 26))
    (text ["<div>"; "  <p>"; "    one"; ""; "    two"; "  </p>"; ""; "  <b class=x>y z</b>"; "</div>"]%string ++ [LF])].
Proof. vm_compute. reflexivity. Qed.
Example lines_body : body ldoc ldoc.
Proof.
  exists []. split; auto. split; [apply white_nil|]. split; [apply (do_utf8 _ ldoc_ok)|]. intros c r H. vm_compute in H. inv H. reflexivity.
Qed.
Example lines_hyp : parse demo_unicode ldoc false html5_void = Ok lroots /\ no_tab_wrap lopt /\
  (forall m, In m (flat_map rendered lroots) -> one_line_values m) /\ length (flat_map rendered lroots) = 3.
Proof.
  split; [vm_compute; reflexivity|]. split; [left; reflexivity|]. split; [|vm_compute; reflexivity].
  intros m M. let l := eval vm_compute in (flat_map rendered lroots) in assert (E : flat_map rendered lroots = l) by (vm_compute; reflexivity). rewrite E in M. clear E.
  unfold one_line_values. cbn [In] in M. destruct M as [<-|[<-|[<-|[]]]]; cbn [n_attrs]; intros x a v A; cbn [attr_get] in A; try discriminate.
  destruct (beq x _) in A; [|discriminate]. inv A. cbn [a_value]. intros Q. inv Q. intros I. cbn [In] in I. destruct I as [I|[]]. discriminate.
Qed.
(** Both kinds of elements *)
Example short_case : exists r b p, In r lroots /\ at_depth r 1 b /\ at_depth r 1 p /\
  n_tag b = Some (bs "b") /\ n_tag p = Some (bs "p") /\
  kept_short lopt 1 b (bs "b") (bs "y  z") /\ ~ kept_short lopt 1 p (bs "p") (text [""; "one"; ""; ""; ""; "two"; ""]%string).
Proof.
  exists (nth 0 lroots (mkNode None 0 0 [] false None None [])), (nth 2 (doc_nodes lroots) (mkNode None 0 0 [] false None None [])),
    (nth 1 (doc_nodes lroots) (mkNode None 0 0 [] false None None [])).
  split; [vm_compute; auto|]. split; [|split; [|split; [reflexivity|split; [reflexivity|split]]]].
  - eapply AD_child with (c := nth 2 (doc_nodes lroots) (mkNode None 0 0 [] false None None [])); [vm_compute; discriminate| |apply AD_here].
    vm_compute. auto.
  - eapply AD_child with (c := nth 1 (doc_nodes lroots) (mkNode None 0 0 [] false None None [])); [vm_compute; discriminate| |apply AD_here].
    vm_compute. auto.
  - split; [vm_compute; intros [H|[H|[H|[H|[]]]]]; discriminate|]. split; [vm_compute; lia|]. intros w W. injection W as <-. vm_compute. lia.
  - intros [H _]. apply H. vm_compute. auto.
Qed.

(** An element that is as long as a line may be is broken: the end tag is counted one byte longer. *)
Theorem C68_exact_fit_refuted : length (bs "<p>ab</p>") = 9 /\
  format_doc (with_wrap 9) (bs "<p>ab</p>") = Ok (text ["<p>"; "  ab"; "</p>"]%string) /\
  format_doc (with_wrap 10) (bs "<p>ab</p>") = Ok (bs "<p>ab</p>").
Proof. vm_compute. auto. Qed.
(** In an element that is short enough every child starts a new line all the same, and the end tag
    follows the last one directly. *)
Theorem C68_short_children_refuted :
  format_doc two (bs "<ul><li>a</li><li>b</li></ul>") = Ok (text ["<ul>"; "  <li>a</li>"; "  <li>b</li></ul>"]%string).
Proof. vm_compute. reflexivity. Qed.
(** With tabs, attributes on lines of their own have blank lines before them and no indent. *)
Theorem C68_tab_wrap_refuted :
  format_doc (mkFmt 2 false false (Some 10) None false (Some 0) false) (bs "<p class=abc id=de></p>") =
  Ok (text ["<p"; ""; "class=abc"; ""; "id=de"; ">"; "</p>"]%string).
Proof. vm_compute. reflexivity. Qed.
(** Blank lines in attribute values stay. *)
Theorem C68_value_lines_refuted :
  format_doc (mkFmt 2 true false (Some 120) None false (Some 0) false) (text ["<p title='a"; ""; ""; "b'></p>"]%string) =
  Ok (text ["<p title='a"; ""; ""; "b'></p>"]%string).
Proof. vm_compute. reflexivity. Qed.
