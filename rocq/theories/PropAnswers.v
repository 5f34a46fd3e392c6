(** * Requests are answered whatever the script of the document (C58) *)
From Verif Require Import SelectionRange PropTags PropSelection Base BaseFacts Stream Scanner ScannerFacts ScanStep ScanProps ScanShape ScanResume ScanPanic Tree
  Parser ParseSpec ParseInv ParseOrder PropParse TreeFacts PropTree ParseEnd PropEnd TextDoc PropDoc ScanComplete
  ScanLocal SelAttr TokenLoop NodeScan DataManager PropData BuiltinData Entities Hover PropHover PropHoverDoc Completion PropTagComplete
  PropComplete PropEdits Folding PropFolding.
From Coq Require Import ZifyBool ZifyNat ZifyN Sorted Permutation.

(** ** What can go wrong *)
(** The column of the cursor is at least the number of letters, digits and ampersands before it. *)
Definition word_column (t : str) (o : nat) (p : position) : Prop :=
  forall a, a <= o -> (forall i, a <= i < o -> exists c, nth_error t i = Some c /\ (alnum c \/ c = 38%N)) -> o - a <= character p.
(** [far t i c]: at [i] is a byte of a character that is not ASCII. *)
Definition far (t : str) (i : nat) : Prop := exists c, nth_error t i = Some c /\ (128 <= c)%N.
(** No white space in front of [b], from [a] on. *)
Definition one_word (t : str) (a b : nat) : Prop :=
  forall i c, a <= i < b -> nth_error t i = Some c -> (c < 128)%N -> is_uspace c = false.
(** The cursor is in an attribute value that begins with a character that is not ASCII,
    or it is in the quotes and the word at the cursor has a character that is not ASCII. *)
Definition value_trouble (t : str) (o : nat) (k : token) : Prop :=
  tk_type k = AttributeValue /\ tk_off k < o <= tk_end k /\
  (far t (tk_off k) \/
   (exists q, nth_error t (tk_off k) = Some q /\ (q = SQUOTE \/ q = DQUOTE)) /\
   exists i, tk_off k < i < tk_end k /\ far t i /\ one_word t i o /\ one_word t o i).

(** ** Lemmas on the text *)
Section Text.
Variable t : str.
Hypothesis HU : Utf8 t.
Lemma get1_none i : i < length t -> get1 t i = None -> far t i.
Proof.
  intros L G. unfold get1 in G. destruct (nth_error t i) as [c|] eqn:E; [|apply nth_error_None in E; lia].
  destruct (c <? 128)%N eqn:Q; [discriminate|]. exists c. split; auto. lia.
Qed.
Lemma get1_far i : far t i -> get1 t i = None.
Proof. intros (c & C & L). unfold get1. rewrite C. replace (c <? 128)%N with false by lia. auto. Qed.
Lemma get1_some i c : get1 t i = Some c -> nth_error t i = Some c /\ (c < 128)%N.
Proof. unfold get1. destruct (nth_error t i) as [x|]; [|discriminate]. destruct (x <? 128)%N eqn:Q; [|discriminate]. intros E. injection E as <-. split; auto. lia. Qed.
Lemma get1_at i c : nth_error t i = Some c -> (c < 128)%N -> get1 t i = Some c.
Proof. intros C L. unfold get1. rewrite C. replace (c <? 128)%N with true by lia. auto. Qed.
Lemma word_start_np limit : forall x, x <= length t ->
  (forall i, limit <= i < x -> far t i -> ~ one_word t i x) -> np (get_word_start t limit x).
Proof.
  induction x as [|x IH]; intros L H; cbn [get_word_start]; [apply np_ok|]. destruct (limit <? _) eqn:Q; [|apply np_ok].
  destruct (get1 t x) as [b|] eqn:G.
  - destruct (white b) eqn:W; [apply np_ok|]. apply get1_some in G as [G1 G2]. apply IH; [lia|]. intros i I F O. apply (H i); [lia|auto|].
    intros j c J C LC. destruct (Nat.eq_dec j x) as [->|]; [|apply (O j c); auto; lia]. rewrite G1 in C. injection C as <-. exact W.
  - exfalso. apply get1_none in G; [|lia]. apply (H x); [lia|auto|]. intros j c J C LC. assert (j = x) by lia. subst j.
    destruct G as (y & G & G'). congruence || (rewrite G in C; injection C as <-; lia).
Qed.
Lemma word_start_panic limit : forall x i, limit <= i < x -> far t i -> one_word t i x -> get_word_start t limit x = Panic PSlice.
Proof.
  induction x as [|x IH]; intros i I F O; [lia|]. cbn [get_word_start]. replace (limit <? S x) with true by lia.
  destruct (Nat.eq_dec i x) as [->|]; [rewrite (get1_far _ F); auto|]. destruct (get1 t x) as [b|] eqn:G; auto.
  apply get1_some in G as [G1 G2]. unfold white. rewrite (O x b) by (auto; lia). apply (IH i); auto; [lia|]. intros j c J. apply O. lia.
Qed.
Lemma word_start_why limit e : forall x, get_word_start t limit x = Panic e -> e = PSlice.
Proof.
  induction x as [|x IH]; cbn [get_word_start]; [discriminate|]. destruct (_ <? _); [|discriminate].
  destruct (get1 t x) as [b|]; [|congruence]. destruct (white b); [discriminate|auto].
Qed.
Lemma word_start_fuel limit : forall x, get_word_start t limit x <> OutOfFuel.
Proof.
  induction x as [|x IH]; cbn [get_word_start]; [discriminate|]. destruct (_ <? _); [|discriminate].
  destruct (get1 t x) as [b|]; [|congruence]. destruct (white b); [discriminate|auto].
Qed.
Lemma word_end_np limit : limit <= length t -> forall fuel x,
  (forall i, x <= i < limit -> far t i -> ~ one_word t x i) -> np (get_word_end t fuel limit x).
Proof.
  intros L. induction fuel as [|fuel IH]; intros x H; cbn [get_word_end]; [apply np_ok|]. destruct (x <? limit) eqn:Q; [|apply np_ok].
  destruct (get1 t x) as [b|] eqn:G.
  - destruct (white b) eqn:W; [apply np_ok|]. apply get1_some in G as [G1 G2]. apply IH. intros i I F O. apply (H i); [lia|auto|].
    intros j c J C LC. destruct (Nat.eq_dec j x) as [->|]; [|apply (O j c); auto; lia]. rewrite G1 in C. injection C as <-. exact W.
  - exfalso. apply get1_none in G; [|lia]. apply (H x); [lia|auto|]. intros j c J. lia.
Qed.
Lemma word_end_panic limit : forall fuel x i, x <= i < limit -> i - x < fuel -> far t i -> one_word t x i -> get_word_end t fuel limit x = Panic PSlice.
Proof.
  induction fuel as [|fuel IH]; intros x i I LF F O; [lia|]. cbn [get_word_end]. replace (x <? limit) with true by lia.
  destruct (Nat.eq_dec i x) as [->|]; [rewrite (get1_far _ F); auto|]. destruct (get1 t x) as [b|] eqn:G; auto.
  apply get1_some in G as [G1 G2]. unfold white. rewrite (O x b) by (auto; lia). apply (IH _ i); auto; [lia|lia|]. intros j c J. apply O. lia.
Qed.
(** Where a line begins is a boundary. *)
Lemma indent_start_bd : forall a s, line_indent_start t a = Some s -> s <= a /\ Bd t s.
Proof.
  induction a as [|a IH]; intros s H; cbn [line_indent_start] in H; [injection H as <-; split; [lia|apply Bd_0; auto]|].
  destruct (get1 t a) as [b|] eqn:G; [|apply IH in H; split; [lia|tauto]]. apply get1_some in G as [G1 G2].
  destruct (b =? 10)%N eqn:Q.
  - injection H as <-. split; [lia|]. replace (S a) with (a + 1) by lia. eapply Bd_after_ascii; eauto.
  - destruct (white b); [|discriminate]. apply IH in H. split; [lia|tauto].
Qed.
Lemma indent_ok a : Bd t a -> exists r, get_line_indent t a = Ok r /\ forall s, r = Some s -> length s <= a.
Proof.
  intros B. unfold get_line_indent. destruct (line_indent_start t a) as [s|] eqn:E; [|eexists; split; eauto; discriminate].
  apply indent_start_bd in E as [L Bs]. rewrite slice_bd by auto. cbn [bind]. eexists. split; eauto.
  intros x X. apply Some_inj in X. subst x. unfold sub. rewrite firstn_length. lia.
Qed.
End Text.

(** ** Searching any forest *)
Lemma idx_before_nth o : forall l i, idx_before o l = Datatypes.S i -> exists c, nth_error l i = Some c /\ n_start c < o.
Proof.
  induction l as [|c l IH]; intros i H; cbn [idx_before] in H; [discriminate|]. destruct (o <=? n_start c) eqn:Q; [discriminate|].
  injection H as H. destruct i as [|i]; [exists c; split; auto; lia|]. apply IH in H. auto.
Qed.
Lemma idx_at_nth o : forall l i, idx_at o l = Datatypes.S i -> exists c, nth_error l i = Some c /\ n_start c <= o.
Proof.
  induction l as [|c l IH]; intros i H; cbn [idx_at] in H; [discriminate|]. destruct (o <? n_start c) eqn:Q; [discriminate|].
  injection H as H. destruct i as [|i]; [exists c; split; auto; lia|]. apply IH in H. auto.
Qed.
Lemma child_in n c x : In c (n_children n) -> In x (preorder c) -> In x (preorder n).
Proof. intros I J. rewrite (preorder_eq n). right. apply in_flat_map. eauto. Qed.
Lemma self_in n : In n (preorder n).
Proof. rewrite preorder_eq. left. auto. Qed.
Lemma at_fuel_total o : forall fuel n, height n <= fuel -> n_start n <= o < n_end n -> exists m ps, find_node_at_fuel fuel n o = Ok (m, ps) /\
  Forall (fun x => In x (preorder n) /\ n_start x <= o < n_end x) (m :: ps).
Proof.
  induction fuel as [|fuel IH]; intros n H S; [rewrite height_eq in H; lia|]. cbn [find_node_at_fuel].
  assert (D : Forall (fun x => In x (preorder n) /\ n_start x <= o < n_end x) [n]) by (repeat constructor; auto using self_in; lia).
  destruct (idx_at o (n_children n)) as [|i] eqn:E; [eauto|]. apply idx_at_nth in E as (c & E & L). rewrite E. apply nth_error_In in E.
  destruct (_ && _) eqn:Q; [|eauto]. destruct (IH c) as (m & ps & -> & F); [apply height_child in E; lia|lia|]. cbn [bind]. exists m, (n :: ps). split; auto.
  assert (F' : Forall (fun x => In x (preorder n) /\ n_start x <= o < n_end x) (m :: ps)).
  { eapply Forall_impl; [|exact F]. intros x [X1 X2]. split; [eapply child_in; eauto|auto]. }
  inversion F'; subst. constructor; auto. inversion D; subst. constructor; auto.
Qed.
Lemma before_fuel_total o : forall fuel n, height n <= fuel -> n_start n < o -> exists m ps, find_node_before_fuel fuel n o = Ok (m, ps) /\
  Forall (fun x => In x (preorder n) /\ n_start x < o) (m :: ps).
Proof.
  induction fuel as [|fuel IH]; intros n H S; [rewrite height_eq in H; lia|]. cbn [find_node_before_fuel].
  assert (D : Forall (fun x => In x (preorder n) /\ n_start x < o) [n]) by (repeat constructor; auto using self_in).
  destruct (idx_before o (n_children n)) as [|i] eqn:E; [eauto|]. apply idx_before_nth in E as (c & E & L). rewrite E. apply nth_error_In in E.
  replace (n_start c <? o) with true by lia. destruct (IH c) as (m & ps & -> & F); [apply height_child in E; lia|lia|]. cbn [bind].
  assert (X : exists m' ps', Ok (m, n :: ps) = Ok (m', ps') /\ Forall (fun x => In x (preorder n) /\ n_start x < o) (m' :: ps')).
  { assert (F' : Forall (fun x => In x (preorder n) /\ n_start x < o) (m :: ps)).
    { eapply Forall_impl; [|exact F]. intros x [X1 X2]. split; [eapply child_in; eauto|auto]. }
    exists m, (n :: ps). split; auto. inversion F'; subst. constructor; auto. inversion D; subst. constructor; auto. }
  assert (Y : exists m' ps', Ok (c, [n]) = Ok (m', ps') /\ Forall (fun x => In x (preorder n) /\ n_start x < o) (m' :: ps')).
  { exists c, [n]. split; auto. constructor; auto. split; auto. apply (child_in n c); auto using self_in. }
  destruct (_ <? _); auto. destruct (last_child c) as [lc|]; auto. destruct (_ =? _); auto.
Qed.
Lemma find_at_total roots o : exists r, find_node_at roots o = Ok r /\
  forall n ps, r = Some (n, ps) -> Forall (fun x => In x (doc_nodes roots) /\ n_start x <= o < n_end x) (n :: ps).
Proof.
  unfold find_node_at. destruct (idx_at o roots) as [|i] eqn:E; [eexists; split; [reflexivity|discriminate]|].
  apply idx_at_nth in E as (c & E & L). rewrite E. apply nth_error_In in E.
  destruct (_ && _) eqn:Q; [|eexists; split; [reflexivity|discriminate]]. unfold find_node_at_in.
  destruct (at_fuel_total o (height c) c) as (m & ps & -> & F); [lia|lia|]. cbn [bind]. eexists. split; [reflexivity|].
  intros n qs X. apply Some_inj in X. injection X as <- <-. eapply Forall_impl; [|exact F]. intros x [X1 X2]. split; auto.
  unfold doc_nodes. apply in_flat_map. eauto.
Qed.
Lemma find_before_total roots o : exists r, find_node_before roots o = Ok r /\
  forall n ps, r = Some (n, ps) -> Forall (fun x => In x (doc_nodes roots) /\ n_start x < o) (n :: ps).
Proof.
  unfold find_node_before. destruct (idx_before o roots) as [|i] eqn:E; [eexists; split; [reflexivity|discriminate]|].
  apply idx_before_nth in E as (c & E & L). rewrite E. apply nth_error_In in E.
  replace (n_start c <? o) with true by lia. unfold find_node_before_in.
  destruct (before_fuel_total o (height c) c) as (m & ps & -> & F); [lia|lia|]. cbn [bind].
  assert (X : forall m' ps', Forall (fun x => In x (preorder c) /\ n_start x < o) (m' :: ps') -> exists r, @Ok (option (node * list node)) (Some (m', ps')) = Ok r /\
    forall n qs, r = Some (n, qs) -> Forall (fun x => In x (doc_nodes roots) /\ n_start x < o) (n :: qs)).
  { intros m' ps' F'. eexists. split; [reflexivity|]. intros n qs X. apply Some_inj in X. injection X as <- <-.
    eapply Forall_impl; [|exact F']. intros x [X1 X2]. split; auto. unfold doc_nodes. apply in_flat_map. eauto. }
  assert (Y := X c [] ltac:(repeat constructor; auto using self_in)). specialize (X m ps F).
  destruct (_ <? _); auto. destruct (last_child c) as [lc|]; auto. destruct (_ =? _); auto.
Qed.

(** ** Completion *)
Section Complete.
Variables (U : unicode) (d : textdoc) (cs : bool) (void : list str) (roots : list node) (l : list token).
Hypothesis HD : textdoc_ok d.
Hypothesis HP : parse U (d_text d) cs void = Ok roots.
Hypothesis HT : doc_tokens U (d_text d) cs = Ok l.
Notation t := (d_text d).
Let HU : Utf8 t := do_utf8 d HD.
Variables (md : bool) (parts : list completion_participant) (providers : list provider) (lang : str)
  (ents : list (str * list N)) (settings : option completion_settings) (order : list (str * str) -> list (str * str)).
Variable p : position.
Let o := offset_at d p.
Notation complete := (do_complete U d cs md parts providers lang ents settings order roots).
Lemma o_bd : Bd t o.
Proof. destruct (do_offset d HD p) as [L B]. apply boundary_Bd; auto. Qed.

(** Looking behind an end tag's name, and behind an attribute's name. *)
Lemma followed_end ty : forall fuel sc, st sc = WithinEndTag -> np (followed U d cs fuel ty sc).
Proof.
  induction fuel as [|fuel IH]; intros sc E; cbn [followed]; [intros e; discriminate|].
  assert (X : exists sc', scan U t false cs sc = Ok sc').
  { rewrite scan_internal by auto. unfold internal_scan. rewrite E. apply within_end_tag_safe. }
  destruct X as (sc' & S). rewrite S. cbn [bind]. destruct (token_eqb (tok sc') Whitespace) eqn:W; [|apply np_ok]. apply token_eqb_eq in W.
  apply IH. apply scan_outcome in S; auto. inversion S; subst; cbn [finish st tok] in *; try congruence.
  - inversion H0; subst; congruence.
Qed.
Lemma followed_name ty : forall fuel sc, st sc = AfterAttributeName -> Bd t (pos sc) -> np (followed U d cs fuel ty sc).
Proof.
  induction fuel as [|fuel IH]; intros sc E B; cbn [followed]; [intros e; discriminate|].
  destruct (scan_safe U t false cs HU sc) as [[sc' S]|[_ (Q & _)]]; [intros _; auto| |congruence].
  rewrite S. cbn [bind]. destruct (token_eqb (tok sc') Whitespace) eqn:W; [|apply np_ok]. apply token_eqb_eq in W.
  apply scan_outcome in S; auto. inversion S; subst; cbn [finish st tok] in *; try congruence.
  - (* within the tag: the blanks were taken before *)
    exfalso. inversion H0; subst; try congruence. inversion H1; subst; cbn [finish tok set_st pos] in *; try discriminate; congruence.
  - apply IH; auto. eapply bd_ws; eauto.
Qed.

Lemma close_answers n ps a f b : 2 <= a + 1 -> Bd t (a - 1) -> Forall (fun x => Bd t (n_start x)) (n :: rev ps) ->
  np (close_tag_items U d cs md providers lang settings o n ps a f b).
Proof.
  intros LA BA F. unfold close_tag_items. apply np_bind; [apply followed_end; auto|]. intros fb _. destruct (find _ _) as [x|] eqn:FX; [|apply np_ok].
  destruct (find_some _ _ FX) as [IX OX]. unfold Completion.open_at in OX. destruct (n_tag x) as [tag|]; [|discriminate].
  assert (X : Bd t (n_start x)).
  { rewrite Forall_forall in F. apply F. destruct f; [right; auto|auto]. }
  apply np_bind; [|intros; apply np_ok]. unfold close_item.
  destruct (indent_ok t HU _ X) as (r & -> & _). cbn [bind]. unfold usub. replace (1 <=? a) with true by lia. cbn [bind].
  destruct (indent_ok t HU _ BA) as (r2 & -> & L2). cbn [bind].
  destruct r; [|apply np_ok]. destruct r2; [|apply np_ok]. destruct (beq _ _); [apply np_ok|]. specialize (L2 _ eq_refl).
  replace (_ <=? a - 1) with true by lia. cbn [bind]. apply np_ok.
Qed.
Lemma names_answers n tag a b : Bd t a -> Bd t b -> tag <> None ->
  np (attr_name_items U d cs md providers lang settings order roots o n tag a b).
Proof.
  intros LA LB T. unfold attr_name_items. apply np_bind; [destruct (b <? a) eqn:Q; rewrite slice_bd by (auto; lia); apply np_ok|intros cur _].
  apply np_bind; [apply followed_name; auto|intros f _]. apply np_bind; [|intros; apply np_ok].
  destruct (used _ _ _); [apply np_ok|]. destruct tag; [apply np_ok|congruence].
Qed.
Lemma values_at_cursor tag attr e : np (attr_value_items U d cs md parts providers lang settings o tag attr o e).
Proof.
  unfold attr_value_items. replace (o <? o) with false by lia. cbn [andb bind]. rewrite slice_bd by (auto using o_bd). cbn [bind]. apply np_ok.
Qed.
Lemma values_answers tag attr k : tk_type k = AttributeValue -> tk_off k < o <= tk_end k -> Bd t (tk_off k) -> Bd t (tk_end k) -> ~ value_trouble t o k ->
  np (attr_value_items U d cs md parts providers lang settings o tag attr (tk_off k) (tk_end k)).
Proof.
  intros KT K B1 B2 NT. pose proof (Bd_le _ _ B2) as L. unfold attr_value_items. replace ((tk_off k <? o) && (o <=? tk_end k)) with true by lia.
  destruct (get1 t (tk_off k)) as [c|] eqn:G.
  2:{ exfalso. apply NT. split; auto. split; auto. left. apply get1_none; auto. lia. }
  destruct (get1_some _ _ _ G) as [G1 G2]. cbn [bind]. destruct (quote_char c) eqn:QC.
  - assert (QQ : c = SQUOTE \/ c = DQUOTE) by (unfold quote_char, SQUOTE, DQUOTE in *; lia).
    apply np_bind; [|intros [[r pre] aq] _; apply np_ok].
    assert (NF : forall i, tk_off k < i < tk_end k -> far t i -> one_word t i o -> one_word t o i -> False).
    { intros i I F O1 O2. apply NT. split; auto. split; auto. right. split; eauto 6. }
    set (cb := if _ && _ then _ else _). assert (LC : cb <= tk_end k) by (unfold cb; destruct (_ && _); lia).
    apply np_bind; [apply word_start_np; [lia|]|intros ws _].
    { intros i I F O. apply (NF i); auto; [lia|]. intros j x J. lia. }
    apply np_bind; [apply word_end_np; [lia|]|intros we _].
    { intros i I F O. apply (NF i); auto; [lia|]. intros j x J. lia. }
    apply np_bind; [|intros; apply np_ok]. destruct ((tk_off k + 1 <=? o) && _) eqn:Q; [|apply np_ok].
    rewrite slice_bd; [apply np_ok|lia| |apply o_bd]. eapply Bd_after_ascii; eauto.
  - rewrite slice_bd by (auto using o_bd; lia). cbn [bind]. apply np_ok.
Qed.
Lemma values_panic tag attr k : Bd t (tk_end k) -> value_trouble t o k ->
  attr_value_items U d cs md parts providers lang settings o tag attr (tk_off k) (tk_end k) = Panic PSlice.
Proof.
  intros B2 (KT & K & TR). pose proof (Bd_le _ _ B2) as L. unfold attr_value_items. replace ((tk_off k <? o) && (o <=? tk_end k)) with true by lia.
  destruct TR as [F|[(q & Q1 & Q2) (i & I & F & O1 & O2)]]; [rewrite (get1_far _ _ F); auto|].
  assert (LQ : (q < 128)%N) by (destruct Q2; subst; reflexivity).
  rewrite (get1_at _ _ _ Q1 LQ). cbn [bind]. replace (quote_char q) with true by (destruct Q2; subst; reflexivity).
  set (cb := if _ && _ then _ else _). assert (LC : i < cb).
  { unfold cb. destruct ((tk_off k <? tk_end k) && _) eqn:Q; [|lia]. apply andb_prop in Q as [_ Q].
    destruct (get1 t (tk_end k - 1)) as [c|] eqn:G; [|discriminate]. apply get1_some in G as [G1 G2].
    destruct (Nat.eq_dec i (tk_end k - 1)) as [->|]; [|lia]. destruct F as (x & F1 & F2). rewrite F1 in G1. injection G1 as ->. lia. }
  destruct (Nat.lt_ge_cases i o) as [LI|LI].
  - rewrite (word_start_panic t _ o i) by (auto; lia). reflexivity.
  - destruct (get_word_start t (tk_off k + 1) o) as [ws|e|] eqn:W.
    + cbn [bind]. rewrite (word_end_panic t cb _ o i) by (auto; lia). reflexivity.
    + cbn [bind]. f_equal. eapply word_start_why; eauto.
    + exfalso. eapply word_start_fuel; eauto.
Qed.
Lemma content_answers : word_column t o p -> np (content_items d parts ents p o).
Proof.
  intros CO. unfold content_items. apply np_bind; [|intros; apply np_ok]. unfold entity_items. destruct (alnum_left_spec t o) as (L1 & L2 & L3).
  assert (NL : forall i, alnum_left t o <= i < o -> exists c, nth_error t i = Some c /\ (alnum c \/ c = 38%N)).
  { intros i I. specialize (L2 i I). apply alnum_at_spec in L2 as (c & C & A). eauto. }
  pose proof (CO _ L1 NL) as C0. unfold usub. replace (_ <=? character p) with true by lia. cbn [bind].
  destruct (alnum_left t o) as [|k]; [apply np_ok|]. destruct (nth_error t k) as [b|] eqn:N; [|apply np_ok].
  destruct (b =? 38)%N eqn:B; [|apply np_ok].
  assert (o - k <= character p).
  { apply CO; [lia|]. intros i I. destruct (Nat.eq_dec i k) as [->|]; [|apply NL; lia]. exists b. split; auto. right. lia. }
  replace (1 <=? _) with true by lia. cbn [bind]. apply np_ok.
Qed.

(** What is in front of the cursor in an opened tag. *)
Definition behind (sc : scanner) : Prop :=
  (st sc = AfterOpeningEndTag -> exists q, 1 <= q < pos sc /\ nth_error t (q - 1) = Some LT /\ nth_error t q = Some SLASH /\
     forall i, q < i < pos sc -> exists b, nth_error t i = Some b /\ is_ws b = true) /\
  (st sc = AfterOpeningStartTag -> 1 <= pos sc /\ Bd t (pos sc - 1)).
Lemma behind_step sc sc' : scan U t true cs sc = Ok sc' -> behind sc -> behind sc'.
Proof.
  intros S [HA HB]. apply scan_outcome in S; auto. inversion S; subst; try (split; intros Q; cbn [finish st pos tok] in *; try discriminate; auto; fail).
  - split; intros Q; cbn [finish st pos tok] in *; try discriminate. exists (pos sc + 1). replace (pos sc + 1 - 1) with (pos sc) by lia.
    split; [lia|]. split; auto. split; auto. intros i I. lia.
  - split; intros Q; cbn [finish st pos tok] in *; try discriminate. split; [lia|]. replace (pos sc + 1 - 1) with (pos sc) by lia.
    eapply Bd_at_ascii; eauto; reflexivity.
  - apply skip_ws_some in H0 as (W1 & W2 & W3 & _). split; intros Q; cbn [finish st pos tok] in *; try discriminate.
    destruct (HA H) as (q & Q1 & Q2 & Q3 & Q4). exists q. split; [lia|]. split; auto. split; auto. intros i I.
    destruct (Nat.lt_ge_cases i (pos sc)); [apply Q4; lia|apply W3; lia].
  - apply skip_ws_some in H0 as (W1 & W2 & W3 & _). split; intros Q; cbn [finish st pos tok] in *; try discriminate.
    split; [lia|]. destruct (W3 (e - 1)) as (b & B1 & B2); [lia|lia|]. eapply Bd_at_ascii; eauto. unfold is_ws in B2. lia.
  - destruct (enter_st d _ _ H0) as (E1 & E2 & E3 & E4).
    assert (X : st sc' <> AfterOpeningEndTag /\ st sc' <> AfterOpeningStartTag); [|split; tauto].
    inversion H1; subst; cbn [finish st pos tok] in *; try (split; congruence).
    unfold after_close. destruct (opt_beq _ _); [destruct (last_type sc1); split; discriminate|]. destruct (opt_beq _ _); split; discriminate.
  - split; intros Q; cbn [finish st] in Q; destruct H2 as [-> |[-> _]]; discriminate.
Qed.
Lemma behind_runs m : forall sc z, runs U t true cs sc m z -> behind sc -> behind z.
Proof.
  induction m as [|x m IH]; intros sc z R H; [inversion R; subst; auto|]. apply runs_inv in R as (S & _ & R). eapply IH; eauto. eapply behind_step; eauto.
Qed.
Lemma slash_found q : nth_error t q = Some SLASH -> 1 <= q -> forall k, q <= k -> (forall i, q < i <= k -> exists b, nth_error t i = Some b /\ is_ws b = true) ->
  slash_before d k = Ok (Some q).
Proof.
  intros C L. induction k as [|k IH]; intros LK W; [lia|]. cbn [slash_before]. destruct (Nat.eq_dec q (Datatypes.S k)) as [E|NE].
  - rewrite <- E. rewrite (get1_at _ _ _ C) by reflexivity. reflexivity.
  - destruct (W (Datatypes.S k)) as (b & B1 & B2); [lia|]. rewrite (get1_at _ _ _ B1) by (unfold is_ws in B2; lia).
    replace (b =? 47)%N with false by (unfold is_ws in B2; lia). replace (white b) with true by (unfold white, is_uspace, is_ws in *; lia).
    apply IH; [lia|]. intros i I. apply W. lia.
Qed.

Lemma step_answers n ps m z sc attr f : Forall (fun x => Bd t (n_start x)) (n :: rev ps) ->
  runs U t true cs (scanner_new (n_start n) WithinContent) m z -> scan U t true cs z = Ok sc -> tok sc <> EOS -> scan U t true cs sc = Ok f ->
  tok_off sc < o <= pos sc -> tok_off sc = pos z -> word_column t o p -> ~ value_trouble t o (token_of sc) -> tok_bd t (token_of sc) ->
  np (complete_step U d cs md parts providers lang ents settings order roots p o n ps sc (tag_at t (map token_of m)) attr).
Proof.
  intros F R S NE SF K TZ CO NV TB. pose proof o_bd as OB. unfold complete_step. cbn zeta. set (tag := tag_at t (map token_of m)).
  assert (DONE : forall x : res (list item), np x -> np (do i <- x; Ok (Some i, tag, attr))).
  { intros x N. apply np_bind; [auto|intros; apply np_ok]. }
  assert (NX : forall ty, np (next_end_pos U d cs o sc ty)).
  { intros ty. unfold next_end_pos. destruct (o =? pos sc); [|apply np_ok]. rewrite SF. cbn [bind]. destruct (_ && _); apply np_ok. }
  assert (TI : forall a e, 2 <= a + 1 -> Bd t (a - 1) -> np (tag_items U d cs md providers lang settings o n ps a e)).
  { intros a e Le La. unfold tag_items. apply np_bind; [apply close_answers; auto|intros; apply np_ok]. }
  assert (NT : in_tag (st z) = true -> st z <> AfterOpeningStartTag -> tok sc <> StartTagClose -> tag <> None).
  { intros. eapply tag_name_known; eauto. }
  assert (TX : text_token (tok sc) -> np (token_text t sc)).
  { intros Q. rewrite token_text_bd by auto. apply np_ok. }
  assert (BB : text_token (tok sc) -> Bd t (tok_off sc) /\ Bd t (pos sc)).
  { intros Q. destruct (TB Q) as (B1 & B2 & _). auto. }
  destruct (behind_runs _ _ _ R) as [E2 E3]; [split; discriminate|]. unfold text_token in *.
  destruct (tok sc) eqn:TK; try (destruct (o <? pos sc); apply np_ok).
  - destruct (pos sc =? o) eqn:Q; [|apply np_ok]. apply np_bind; [apply NX|intros e E]. apply DONE, np_bind; [|intros; apply np_ok].
    assert (st sc = AfterOpeningStartTag).
    { clear - S TK HU. apply scan_outcome in S; auto. inversion S; subst; cbn [finish tok st] in *; try congruence. inversion H1; subst; cbn in *; congruence. }
    destruct (behind_step _ _ S (conj E2 E3)) as [_ Q3]. destruct (Q3 H). apply TI; [lia|]. replace o with (pos sc) by lia. auto.
  - destruct (o <=? pos sc); [|apply np_ok]. destruct tag; apply np_ok.
  - destruct (_ && _); [apply np_ok|]. apply np_bind; [auto|intros; apply np_ok].
  - destruct (o <=? pos sc); [|apply np_ok]. apply np_bind; [apply NX|intros e E]. apply DONE, close_answers; auto; [lia|].
    replace (tok_off sc + 1 - 1) with (tok_off sc) by lia. rewrite TZ.
    clear - S TK HU. apply scan_outcome in S; auto. inversion S; subst; cbn [finish tok st] in *; try congruence.
    + eapply Bd_at_ascii; eauto; reflexivity.
    + inversion H1; subst; cbn in *; congruence.
  - destruct (o <=? pos sc); [|apply np_ok]. assert (SZ : st z = AfterOpeningEndTag) by (eapply end_tag_name_step; eauto).
    destruct (E2 SZ) as (q & Q1 & Q2 & Q3 & Q4). unfold usub. replace (1 <=? tok_off sc) with true by lia. cbn [bind].
    rewrite (slash_found q) by (auto; try lia; intros i J; apply Q4; lia). cbn [bind]. apply DONE, close_answers; auto; [lia|].
    eapply Bd_at_ascii; eauto; reflexivity.
  - destruct (pos sc =? o) eqn:Q; [|apply np_ok]. apply np_bind; [apply NX|intros e E]. apply DONE, values_at_cursor.
  - destruct BB as [B1 B2]; [auto|]. destruct (_ && _); [|apply np_bind; [auto|intros; apply np_ok]]. apply DONE, names_answers; auto.
    assert (X : in_tag (st z) = true /\ st z <> AfterOpeningStartTag) by (eapply attr_name_step; eauto). destruct X. apply NT; auto. discriminate.
  - destruct (_ && _); [|apply np_ok]. destruct BB as [B1 B2]; [auto|]. apply DONE. apply (values_answers tag attr (token_of sc)); auto.
  - destruct (o <=? pos sc); [|apply np_ok]. apply DONE, content_answers; auto.
  - destruct (o <=? pos sc); [|apply np_ok]. assert (X : (st sc = AfterOpeningEndTag -> st z = AfterOpeningEndTag) /\ (st sc = AfterOpeningStartTag -> st z = AfterOpeningStartTag) /\
      st sc <> BeforeAttributeValue /\ (st sc = WithinTag \/ st sc = AfterAttributeName -> in_tag (st z) = true /\ st z <> AfterOpeningStartTag))
      by (eapply ws_step; eauto). destruct X as (X1 & X2 & X3 & X4).
    assert (BP : Bd t (pos sc)).
    { clear - S TK HU. apply scan_outcome in S; auto. inversion S; subst; cbn [finish tok pos] in *; try congruence; try solve [eapply bd_ws; eauto].
      inversion H1; subst; cbn [finish tok pos] in *; try congruence. eapply bd_ws; eauto. }
    destruct (st sc) eqn:ST; try apply np_ok.
    + apply DONE, content_answers; auto.
    + apply np_bind; [apply NX|intros e E]. destruct (E3 (X2 eq_refl)) as [E4 E5]. rewrite TZ. apply DONE, TI; auto; lia.
    + destruct (E2 (X1 eq_refl)) as (q & Q1 & Q2 & Q3 & Q4). unfold usub. replace (1 <=? tok_off sc) with true by lia. cbn [bind].
      apply DONE, close_answers; auto; [lia|]. rewrite TZ.
      assert (X : exists b, nth_error t (pos z - 1 - 1) = Some b /\ (b < 128)%N).
      { destruct (Nat.eq_dec q (pos z - 1)) as [->|]; [exists LT; split; auto; reflexivity|].
        destruct (Nat.eq_dec q (pos z - 1 - 1)) as [<-|]; [exists SLASH; split; auto; reflexivity|].
        destruct (Q4 (pos z - 1 - 1)) as (b & B1 & B2); [lia|]. exists b. split; auto. unfold is_ws in B2. lia. }
      destruct X as (b & B1 & B2). eapply Bd_at_ascii; eauto.
    + destruct (X4 (or_introl eq_refl)). apply DONE, names_answers; auto. apply NT; auto. discriminate.
    + destruct (X4 (or_intror eq_refl)). apply DONE, names_answers; auto. apply NT; auto. discriminate.
    + congruence.
Qed.
Lemma run_tok_bd m : forall a z sc, runs U t true cs a m z -> Good t a -> scan U t true cs z = Ok sc -> tok sc <> EOS -> tok_bd t (token_of sc).
Proof.
  induction m as [|x m IH]; intros a z sc R G S NE; [inversion R; subst; eapply emit_tok_bd; eauto|]. apply runs_inv in R as (S1 & _ & R).
  destruct (good_step U t true cs HU _ _ G (scan_outcome _ _ _ _ HU _ _ S1)) as [G'|G']; [eapply IH; eauto|].
  apply (after_bad_panics U t true cs HU) in G'. destruct m as [|y m]; [inversion R; subst; congruence|]. apply runs_inv in R as (S2 & _). congruence.
Qed.
Lemma complete_answers : word_column t o p -> (forall k, In k l -> ~ value_trouble t o k) -> exists items, complete p = Ok items.
Proof.
  intros CO NV. assert (NP : np (complete p)).
  { destruct (found_total U d cs void roots HD HP o) as (r & F). destruct r as [[n ps]|].
    2:{ rewrite (complete_none U d cs roots md parts providers lang ents settings order p F). apply np_ok. }
    assert (OL : o <= length t) by (apply (do_offset d HD)). destruct (found U d cs void roots HD HP o n ps F) as (P & I & L & _).
    destruct (covering U d cs l HD HT o) as (l1 & k & l2 & E & K); [lia|].
    destruct (complete_at_next U d cs void roots l HD HP HT md parts providers lang ents settings order p n ps l1 k l2 F E K)
      as (pre & mid & m & z & sc & f & X & R & M & S & NE & TK & SF & _ & _ & ->).
    assert (KK : tok_off sc = tk_off k /\ pos sc = tk_end k) by (rewrite <- TK; auto).
    pose proof (doc_tiles _ _ _ _ HU HT) as TL. assert (IK : In k l) by (rewrite E; apply in_or_app; cbn; auto).
    assert (B : tk_end k <= length t) by (apply (tiles_bounds _ _ _ k TL) in IK; lia).
    unfold answer. apply np_bind; [|intros [[? ?] ?] _; apply np_ok]. rewrite <- M. apply step_answers with (z := z) (f := f); auto; try lia.
    - apply Forall_forall. intros x IX. destruct (slash_in U d cs void roots HD HP o n ps x F IX) as (Q & _ & _).
      apply (node_bd U d cs void roots HD HP x Q).
    - apply scan_outcome in S; auto. apply outcome_progress in S as [S _]. auto.
    - rewrite TK. auto.
    - eapply run_tok_bd; eauto. right. right. reflexivity. }
  pose proof (complete_fuel U d cs void roots l HD HP HT md parts providers lang ents settings order p) as NF.
  destruct (complete p) as [items|e|]; [eauto|exfalso; apply (NP e); auto|congruence].
Qed.
(** The cursor in such a value: no answer. *)
Lemma complete_panics k : In k l -> value_trouble t o k -> complete p = Panic PSlice.
Proof.
  intros I V. assert (V' := V). destruct V' as (T & K & _). apply in_split in I as (l1 & l2 & E).
  assert (IK : in_tag (tk_state k) = true).
  { destruct (doc_step U d cs l HT k) as (u & v & S & _ & <-); [rewrite E; apply in_or_app; cbn; auto|]. cbn [token_of tk_type tk_state] in *.
    apply scan_outcome in S; auto. inversion S; subst; cbn [finish tok st] in *; try congruence; try reflexivity. inversion H1; subst; cbn [finish tok st] in *; congruence. }
  destruct (tag_owner U d cs void roots l HD HP HT l1 k l2 o E K IK) as (n & ps & _ & _ & _ & _ & _ & F & _); [congruence|].
  destruct (complete_at_next U d cs void roots l HD HP HT md parts providers lang ents settings order p n ps l1 k l2 F E K)
      as (pre & mid & m & z & sc & f & X & R & M & S & NE & TK & SF & _ & _ & ->).
  assert (KK : tok_off sc = tk_off k /\ pos sc = tk_end k /\ tok sc = AttributeValue) by (rewrite <- TK in *; auto). destruct KK as (K1 & K2 & K3).
  assert (TB : tok_bd t (token_of sc)) by (eapply run_tok_bd; eauto; right; right; reflexivity).
  destruct TB as (_ & TB & _); [cbn [token_of tk_type]; rewrite K3; unfold text_token; auto|].
  unfold answer, complete_step. fold o. rewrite K3, K1, K2. replace ((tk_off k <=? o) && (o <=? tk_end k)) with true by lia.
  rewrite (values_panic _ _ k); auto. rewrite TK in TB. auto.
Qed.
End Complete.

(** ** Documents scanned without panic *)
(** No white space and no control character beyond ASCII, and the last character is ASCII. *)
Definition clean (t : str) : Prop :=
  (forall c, In c (decode t) -> bad_char c = false) /\ (forall t' c, t = t' ++ encode1 c -> scalar c = true -> (c < 128)%N).
Section Clean.
Variables (U : unicode) (t : str) (cs : bool).
Hypothesis HU : Utf8 t.
Hypothesis HC : clean t.
Lemma clean_step e sc : Good t sc -> exists sc', scan U t e cs sc = Ok sc' /\ Good t sc'.
Proof.
  intros G. destruct HC as [C1 C2]. destruct (scan_safe U t e cs HU sc G) as [(sc' & S)|[_ (_ & _ & q & c & t' & _ & _ & _ & E & Sc & Lc)]].
  - exists sc'. split; auto. destruct (good_step U t e cs HU _ _ G (scan_outcome _ _ _ _ HU _ _ S)) as [G'|G']; auto.
    exfalso. eapply clean_not_bad; eauto.
  - exfalso. specialize (C2 _ _ E Sc). lia.
Qed.
Lemma clean_scan sc : Good t sc -> exists sc', scan U t false cs sc = Ok sc' /\ Good t sc'.
Proof. apply clean_step. Qed.
End Clean.

Section Rescan.
Variables (U : unicode) (d : textdoc) (cs : bool) (void : list str) (roots : list node).
Hypothesis HD : textdoc_ok d.
Hypothesis HP : parse U (d_text d) cs void = Ok roots.
Notation t := (d_text d).
Hypothesis HC : clean t.
Let HU : Utf8 t := do_utf8 d HD.
Lemma new_good s : Good t (scanner_new s WithinContent).
Proof. intros _. right. right. reflexivity. Qed.
Lemma next_measure fuel sc sc' : scan U t false cs sc = Ok sc' -> measure t sc < fuel -> tok sc' = EOS \/ measure t sc' + 1 < fuel.
Proof.
  intros S M. destruct (token_eqb (tok sc') EOS) eqn:T'; [left; apply token_eqb_eq; auto|right; apply token_eqb_neq in T'].
  pose proof (scan_measure U t false cs HU _ _ S T'). lia.
Qed.

(** *** Tag and quote completion *)
Lemma ends_loop_answers ty o : forall fuel sc, tok sc = EOS \/ measure t sc + 1 < fuel -> 1 <= fuel -> Good t sc ->
  exists b, ends_at_loop U d cs fuel ty o sc = Ok b.
Proof.
  induction fuel as [|fuel IH]; intros sc M L G; [lia|]. cbn [ends_at_loop].
  destruct (token_eqb (tok sc) EOS) eqn:T; cbn [negb andb]; [eauto|]. apply token_eqb_neq in T.
  destruct M as [M|M]; [congruence|]. destruct (pos sc <=? o); [|eauto]. destruct (_ && _); [eauto|].
  destruct (clean_scan U t cs HU HC sc G) as (sc' & S & G'). rewrite S. cbn [bind]. apply IH; auto; [|lia]. apply next_measure with sc; auto. lia.
Qed.
Lemma ends_answers s ty o : exists b, ends_at U d cs s ty o = Ok b.
Proof.
  unfold ends_at. destruct (clean_scan U t cs HU HC _ (new_good s)) as (sc' & S & G'). rewrite S. cbn [bind].
  apply ends_loop_answers; auto; [|unfold scan_fuel; lia]. apply next_measure with (1 := S). apply (start_measure d).
Qed.
Lemma quote_loop_answers o v : forall fuel sc, tok sc = EOS \/ measure t sc + 1 < fuel -> 1 <= fuel -> Good t sc ->
  exists b, quote_loop U d cs fuel o v sc = Ok b.
Proof.
  induction fuel as [|fuel IH]; intros sc M L G; [lia|]. cbn [quote_loop].
  destruct (token_eqb (tok sc) EOS) eqn:T; cbn [negb andb]; [eauto|]. apply token_eqb_neq in T.
  destruct M as [M|M]; [congruence|]. destruct (pos sc <=? o); [|eauto].
  destruct (clean_scan U t cs HU HC sc G) as (sc' & S & G'). rewrite S. cbn [bind]. destruct (_ && _).
  - destruct (negb _); [eauto|]. destruct (clean_scan U t cs HU HC sc' G') as (s2 & S2 & _). rewrite S2. cbn [bind]. destruct (_ || _); eauto.
  - apply IH; auto; [|lia]. apply next_measure with sc; auto. lia.
Qed.

(** *** Hover *)
Lemma hover_scan_answers ty o : forall fuel sc, measure t sc < fuel -> Good t sc ->
  exists r, hover_scan U d cs fuel ty o sc = Ok r /\ (tok r <> EOS -> tok_bd t (token_of r)).
Proof.
  induction fuel as [|fuel IH]; intros sc M G; [lia|]. cbn [hover_scan].
  destruct (clean_scan U t cs HU HC sc G) as (sc' & S & G'). rewrite S. cbn [bind].
  destruct (token_eqb (tok sc') EOS) eqn:T; cbn [negb andb].
  - apply token_eqb_eq in T. eexists. split; [reflexivity|]. congruence.
  - apply token_eqb_neq in T. destruct (_ || _).
    + apply IH; auto. pose proof (scan_measure U t false cs HU _ _ S T). lia.
    + exists sc'. split; [reflexivity|]. intros _. apply (scan_tok_bd U t cs HU sc); auto.
Qed.
Lemma attr_before_answers stop : forall fuel sc prev, tok sc = EOS \/ measure t sc + 1 < fuel -> 1 <= fuel -> Good t sc ->
  exists r, attr_before U d cs fuel stop sc prev = Ok r.
Proof.
  induction fuel as [|fuel IH]; intros sc prev M L G; [lia|]. cbn [attr_before].
  destruct (token_eqb (tok sc) EOS) eqn:T; cbn [negb andb]; [eauto|]. apply token_eqb_neq in T.
  destruct M as [M|M]; [congruence|].
  destruct (pos sc <=? stop); [|eauto]. destruct (clean_scan U t cs HU HC sc G) as (sc' & S & G'). rewrite S. cbn [bind].
  assert (M' : tok sc' = EOS \/ measure t sc' + 1 < fuel) by (apply next_measure with sc; auto; lia).
  destruct (token_eqb (tok sc') AttributeName) eqn:TA; [|apply IH; auto; lia].
  apply token_eqb_eq in TA. assert (NE : tok sc' <> EOS) by congruence.
  rewrite token_text_bd; [|apply (scan_tok_bd U t cs HU sc); auto|unfold text_token; auto]. cbn [bind]. apply IH; auto. lia.
Qed.
Lemma hover_answers md parts providers lang ents opts p : column_ok t (offset_at d p) p ->
  exists h, do_hover U d cs md parts providers lang ents opts p roots = Ok h.
Proof.
  intros CO.
  assert (CT : forall a b, a <= b -> Bd t a -> Bd t b -> get_content d (range_at d a b) = Ok (sub t a b)).
  { intros a b L A B. unfold get_content. cbn [range_at r_start r_end]. rewrite !(do_inv _ HD) by (auto using Bd_boundary, Bd_le). apply slice_bd; auto. }
  assert (TR : forall ty s o, exists r, hover_token_range U d cs ty s o = Ok r /\
     (forall x, r = Some x -> text_token ty -> exists a b, a <= b /\ Bd t a /\ Bd t b /\ x = range_at d a b)).
  { intros ty s o. unfold hover_token_range.
    destruct (hover_scan_answers ty o (scan_fuel t) (scanner_new s WithinContent) (start_measure d s) (new_good s)) as (r & E & B).
    rewrite E. cbn [bind]. eexists. split; [reflexivity|]. intros x X NT.
    destruct (token_eqb (tok r) ty && _) eqn:Q; [|discriminate]. apply Some_inj in X. apply andb_true_iff in Q as [Q1 Q2].
    apply token_eqb_eq in Q1. subst ty. destruct B as (B1 & B2 & B3); [intros Q; rewrite Q in NT; unfold text_token in NT; intuition discriminate|exact NT|].
    exists (tok_off r), (pos r). cbn [token_of tk_off tk_end] in *. repeat split; auto. lia. }
  unfold do_hover.
  destruct (find_at_total roots (offset_at d p)) as (r & -> & _). cbn [bind]. destruct r as [[n ps]|]; [|eauto].
  destruct (n_tag n); [|eauto].
  destruct (match n_ets n with Some e => if e <=? offset_at d p then Some e else None | None => None end) as [e|] eqn:EE.
  { destruct (TR EndTag e (offset_at d p)) as (r & -> & _). cbn. eauto. }
  destruct (TR StartTag (n_start n) (offset_at d p)) as (r & -> & _). cbn [bind]. destruct r; [eauto|].
  destruct (TR AttributeName (n_start n) (offset_at d p)) as (r & -> & R). cbn [bind]. destruct r.
  { destruct (R _ eq_refl) as (a & b & L1 & L2 & L3 & ->); [unfold text_token; auto|]. rewrite CT by auto. cbn. eauto. }
  destruct (entity_dec t (offset_at d p)) as [(a & b & X)|X]; [apply (do_offset d HD)| |].
  - rewrite (entity_range_some d p _ a b X). 2:{ destruct X as (_ & A1 & _ & A2 & _). apply CO; [lia|]. intros i Hi. apply A2. lia. }
    cbn [bind]. erewrite entity_hover_eq by eauto. eauto.
  - rewrite entity_range_none by (auto; apply (do_offset d HD)). cbn [bind].
    destruct (TR AttributeValue (n_start n) (offset_at d p)) as (r & -> & R'). cbn [bind]. destruct r as [r|].
    2:{ cbn. eauto. }
    destruct (R' _ eq_refl) as (a & b & L1 & L2 & L3 & ->); [unfold text_token; auto|]. rewrite CT by auto. cbn [bind].
    unfold scan_attr_and_attr_value. destruct (clean_scan U t cs HU HC _ (new_good (n_start n))) as (sc' & S & G'). rewrite S. cbn [bind].
    destruct (attr_before_answers (offset_at d (r_start (range_at d a b))) (scan_fuel t) sc' None) as (q & ->); auto.
    { apply next_measure with (1 := S). apply (start_measure d). }
    { unfold scan_fuel. lia. }
    cbn [bind]. destruct q; eauto.
Qed.

Lemma tag_complete_answers providers lang p : exists r, do_tag_complete U d cs providers lang roots p = Ok r.
Proof.
  unfold do_tag_complete. destruct (offset_at d p) as [|k] eqn:O; [eauto|]. destruct (get1 (d_text d) k) as [b|]; [|eauto].
  destruct (find_before_total roots (Datatypes.S k)) as (r & F & _).
  destruct (b =? 62)%N.
  - rewrite F. cbn [bind]. destruct r as [[x ps]|]; [|eauto]. destruct (n_tag x); [|eauto]. destruct (_ && _); [|eauto].
    destruct (ends_answers (n_start x) StartTagClose (Datatypes.S k)) as (e & ->). cbn [bind]. eauto.
  - destruct (b =? 47)%N; [|eauto]. rewrite F. cbn [bind]. destruct r as [[x ps]|]; [|eauto]. destruct (find _ _) as [y|]; [|eauto].
    destruct (n_tag y); [|eauto]. destruct (ends_answers (n_start y) EndTagOpen (Datatypes.S k)) as (e & ->). cbn [bind]. eauto.
Qed.
Lemma quote_complete_answers settings p : exists r, do_quote_complete U d cs settings roots p = Ok r.
Proof.
  unfold do_quote_complete. destruct (offset_at d p) as [|k] eqn:O; [eauto|]. destruct (get1 (d_text d) k) as [b|]; [|eauto].
  destruct (find_before_total roots (Datatypes.S k)) as (r & F & _). destruct (b =? 61)%N; [|eauto].
  assert (Q : forall x v, exists r, (do sc <- scan U t false cs (scanner_new (n_start x) WithinContent); quote_loop U d cs (scan_fuel t) (Datatypes.S k) v sc) = Ok r).
  { intros x v. destruct (clean_scan U t cs HU HC _ (new_good (n_start x))) as (sc' & S & G'). rewrite S. cbn [bind].
    apply quote_loop_answers; auto; [|unfold scan_fuel; lia]. apply next_measure with (1 := S). apply (start_measure d). }
  destruct (the_quotes settings); [eauto| |]; rewrite F; cbn [bind]; (destruct r as [[x ps]|]; [|eauto]); (destruct (open_below _ _); [apply Q|eauto]).
Qed.

(** *** Selection ranges *)
Lemma sub_clean a b : Bd t a -> Bd t b -> a <= b -> forall c, In c (decode (sub t a b)) -> bad_char c = false.
Proof.
  intros A B L c I. destruct HC as [C1 _]. apply C1. pose proof (Bd_sub _ _ _ A B L) as (w & Sw & Ew). rewrite Ew, decode_encode in I by auto.
  destruct A as (c1 & c2 & S1 & S2 & E1 & E2). destruct B as (c3 & c4 & S3 & S4 & E3 & E4).
  assert (ET : t = encode (c1 ++ w ++ c4)).
  { rewrite !encode_app. rewrite <- Ew. rewrite <- (firstn_skipn a t) at 1. f_equal.
    - rewrite E1, E2, firstn_app, firstn_all, Nat.sub_diag, firstn_O, app_nil_r. auto.
    - unfold sub. rewrite <- (firstn_skipn (b - a) (skipn a t)) at 1. f_equal. rewrite skipn_skipn. replace (b - a + a) with b by lia.
      rewrite E3, E4, skipn_app, skipn_all, Nat.sub_diag. auto. }
  rewrite ET, decode_encode; [|rewrite !forallb_app, S1, Sw, S4; auto]. apply in_or_app. right. apply in_or_app. auto.
Qed.
Lemma sub_clean_end a b c : Bd t a -> Bd t b -> a < b -> nth_error t (b - 1) = Some c -> (c < 128)%N -> clean (sub t a b).
Proof.
  intros A B L N LC. split; [apply sub_clean; auto; lia|]. intros t' x E Sx. destruct (N.lt_ge_cases x 128) as [|Lx]; auto. exfalso.
  destruct (scan_prefix_ne x Sx Lx) as (y & Y1 & Y2 & Y3). pose proof (Bd_le _ _ B).
  assert (Q : nth_error (sub t a b) (b - a - 1) = Some c) by (rewrite sub_nth_error by lia; rewrite <- N; f_equal; lia).
  assert (LS : length (sub t a b) = b - a) by (rewrite sub_length; lia). rewrite E in Q, LS. rewrite app_length in LS.
  destruct (encode1 x) as [|z w] using rev_ind; [cbn in Y3; lia|]. clear IHw. rewrite app_length in LS. cbn [length] in LS. rewrite last_last in Y1. subst z.
  rewrite app_assoc, nth_error_app2 in Q by (rewrite app_length; lia). rewrite app_length in Q.
  replace (b - a - 1 - (length t' + length w)) with 0 in Q by lia. injection Q as <-. unfold is_cont in Y2. lia.
Qed.
Lemma attr_loop_answers x rel : Utf8 x -> clean x -> forall fuel y s, Good x y -> measure x y < fuel -> exists r, attr_loop U x cs rel fuel y s = Ok r.
Proof.
  intros HX CX. induction fuel as [|fuel IH]; intros y s G M; [lia|]. cbn [attr_loop].
  destruct (clean_scan U x cs HX CX y G) as (y' & S & G'). rewrite S. cbn [bind]. destruct (token_eqb (tok y') EOS) eqn:T; [eauto|]. apply token_eqb_neq in T.
  pose proof (scan_measure U x false cs HX _ _ S T) as M'. pose proof (scan_tok_bd U x cs HX _ _ G S T) as TB.
  assert (A : exists s', SelectionRange.attr_step x rel y' s = Ok s').
  { unfold SelectionRange.attr_step. destruct (tok y') eqn:TY; eauto.
    - destruct (_ <? _); eauto.
    - destruct (as_inside s); [|eauto]. destruct TB as (B1 & B2 & B3); [cbn; rewrite TY; unfold text_token; auto|]. cbn [token_of tk_off tk_end] in *.
      unfold token_text. rewrite slice_bd by (auto; lia). cbn [bind]. destruct (_ <? _); [eauto|]. destruct (_ <=? _); [|eauto].
      pose proof (Bd_le _ _ B2). unfold usub. rewrite sub_length by lia. replace (1 <=? pos y' - tok_off y') with true by lia. cbn [bind].
      destruct (_ || _); cbn [bind]; [|eauto]. replace (1 <=? pos y') with true by lia. cbn [bind]. eauto. }
  destruct A as (s' & ->). cbn [bind]. apply IH; auto. lia.
Qed.
Lemma ste_gt n s : In n (doc_nodes roots) -> n_ste n = Some s -> nth_error t (s - 1) = Some GT.
Proof.
  intros I ST. destruct (node_facts _ _ _ _ _ HU HP) as (l & T & F). destruct (F n I).
  assert (TD := T). unfold doc_tokens in T. apply bind_ok in T as ([l' f] & T & E). apply Ok_inj in E. subst l'.
  destruct ok_start as (pre & op & ks & post & TS & O1 & O2 & K1 & _ & K2 & _ & _ & S0).
  rewrite ST in S0. unfold ste_of in S0. destruct post as [|k post]; [discriminate|].
  destruct (token_eqb (tk_type k) StartTagSelfClose || _) eqn:Q in S0; [|discriminate]. apply Some_inj in S0.
  assert (SH : Forall (token_shape U t true) l) by (revert T; apply tokens_forall; intros u v; apply scan_shape; auto).
  rewrite Forall_forall in SH.
  assert (Ik : In k l) by (subst l; apply in_or_app; cbn; right; right; apply in_or_app; cbn; auto).
  assert (TLk : tk_off k <= tk_end k <= length t).
  { pose proof (tiles_bounds _ _ _ _ (doc_tiles _ _ _ _ HU TD) Ik). lia. }
  specialize (SH _ Ik). unfold token_shape in SH. cbv zeta in SH. subst s.
  assert (X : forall x, sub t (tk_off k) (tk_end k) = x ++ [GT] -> nth_error t (tk_end k - 1) = Some GT).
  { intros x E. pose proof (f_equal (@length N) E) as L. rewrite sub_length, app_length in L by lia. cbn [length] in L.
    assert (Y : nth_error (sub t (tk_off k) (tk_end k)) (length x) = Some GT) by (rewrite E, nth_error_app2, Nat.sub_diag by lia; reflexivity).
    rewrite sub_nth_error in Y by lia. rewrite <- Y. f_equal. lia. }
  apply orb_true_iff in Q as [Q|Q].
  - apply token_eqb_eq in Q. rewrite Q in SH. apply (X (bs "/")). exact SH.
  - apply andb_true_iff in Q as [Q1 Q2]. apply token_eqb_eq in Q1. rewrite Q1 in SH.
    destruct SH as [SH|(_ & SH & _)]; [|lia]. apply (X []). exact SH.
Qed.
Lemma selection_answers p : (forall c, c <= length t -> offset_at d (position_at d c) <= c) ->
  (forall n a, innermost roots (offset_at d p) n -> n_ets n = Some a -> exists c, nth_error t (n_end n - 1) = Some c /\ (c < 128)%N) ->
  exists rs, get_selection_range U d p roots cs = Ok rs.
Proof.
  intros RD EA. unfold get_selection_range.
  enough (exists l, get_applicable_ranges U d p roots cs = Ok l) as (l & ->) by (cbn [bind]; eauto).
  unfold get_applicable_ranges. set (o := offset_at d p) in *.
  destruct (find_at_innermost U t cs void roots o HU HP) as [[F _]|(n & ps & F & IN & _)]; rewrite F; cbn [bind]; [eauto|].
  destruct (C12_spans _ _ _ _ _ HU HP) as (_ & SP). rewrite Forall_forall in SP. assert (I : In n (doc_nodes roots)) by apply IN.
  assert (S := SP n I). unfold span_ok in S. assert (OB : n_start n <= o < n_end n) by apply IN.
  destruct (node_bd U d cs void roots HD HP n I) as [BA BB].
  assert (G : (exists c, nth_error t (n_end n - 1) = Some c /\ (c < 128)%N) -> exists al, get_attribute_level_ranges U d n o cs = Ok al).
  { intros (c & C1 & C2). unfold get_attribute_level_ranges, get_content. cbn [range_at r_start r_end]. rewrite !(do_inv _ HD) by (auto using Bd_boundary, Bd_le).
    rewrite slice_bd by (auto; lia). cbn [bind]. unfold usub. replace (n_start n <=? o) with true by lia.
    cbn [bind]. set (x := sub t (n_start n) (n_end n)).
    destruct (attr_loop_answers x (o - n_start n)) with (fuel := scan_fuel x) (y := scanner_new 0 WithinContent) (s := mkA [] false 0) as (r & ->).
    - apply Bd_sub; auto. lia.
    - apply sub_clean_end with c; auto. lia.
    - intros _. right. right. reflexivity.
    - unfold measure, scan_fuel. cbn -[Nat.mul Nat.sub Nat.leb]. destruct (length x <=? 0); lia.
    - cbn [bind]. eauto. }
  revert S.
  destruct (n_ste n) as [s|] eqn:ST; [|eauto]. destruct (n_ets n) as [e|] eqn:ET; intros (_ & LN & S1 & S2 & S3).
  - destruct (G (EA n e IN ET)) as (al & G0). rewrite G0. unfold usub. destruct (_ && _); [replace (1 <=? s) with true by lia; cbn [bind]; eauto|].
    destruct (_ && _); [eauto|]. destruct (_ <=? _); [|eauto]. replace (1 <=? n_end n) with true by lia. cbn [bind]. eauto.
  - destruct (negb _) eqn:C; [eauto|].
    assert (EQ : s = n_end n) by (apply negb_false_iff, Nat.eqb_eq in C; auto).
    destruct G as (al & G0). { exists GT. split; [|reflexivity]. rewrite <- EQ. apply (ste_gt n); auto. } rewrite G0. unfold usub.
    assert (s2 : 2 <= s).
    { assert (OS : n_start n <= o < s) by (rewrite EQ; exact OB). clearbody o.
       destruct (attr_ranges U d cs void roots HD HP n s o al I ST OS G0) as (q & (l0 & k & _ & _ & _ & _ & Q) & Q1 & _). lia. }
    replace (2 <=? s) with true by lia. cbn [bind].
    assert (CT : exists x, get_content d (range_at d (s - 2) s) = Ok x).
    { unfold get_content. cbn [range_at r_start r_end]. destruct (do_offset d HD (position_at d (s - 2))) as [A1 A2].
      pose proof (RD (s - 2) ltac:(lia)). rewrite (do_inv _ HD s) by (try rewrite EQ; auto using Bd_boundary, Bd_le).
      eexists. apply slice_bd; [lia|apply boundary_Bd; auto|rewrite EQ; auto]. }
    destruct CT as (x & ->). cbn [bind].
    destruct (beq _ _); [|replace (1 <=? s) with true by lia]; cbn [bind]; eauto.
Qed.
End Rescan.


(** ** The theorems *)
(** C58: completion is answered at every cursor of every document that can be parsed, whatever the
    script, but for one place: an attribute value with a character that is not ASCII at its
    beginning, or at the cursor between its quotes. There it always fails. *)
Theorem C58_completion : forall U d cs void roots l md parts providers lang ents settings order p,
  textdoc_ok d -> parse U (d_text d) cs void = Ok roots -> doc_tokens U (d_text d) cs = Ok l ->
  word_column (d_text d) (offset_at d p) p ->
  (exists items, do_complete U d cs md parts providers lang ents settings order roots p = Ok items) <->
  (forall k, In k l -> ~ value_trouble (d_text d) (offset_at d p) k).
Proof.
  intros U d cs void roots l md parts providers lang ents settings order p HD HP HT CO. split.
  - intros (items & C) k I V. rewrite (complete_panics U d cs void roots l HD HP HT md parts providers lang ents settings order p k I V) in C. discriminate.
  - intros H. apply (complete_answers U d cs void roots l HD HP HT md parts providers lang ents settings order p CO H).
Qed.
Print Assumptions C58_completion.
(** The columns of the editor are as required. *)
Theorem C58_columns : forall t o, Utf8 t -> o <= length t -> is_boundary t o = true -> word_column t o (position_at (utf16_doc t) o).
Proof.
  intros t o HU L B a LA AL. destruct (Nat.eq_dec a o) as [-> |NE]; [lia|].
  rewrite (utf16_plain t a o); auto.
  - cbn. lia.
  - destruct (AL a) as (c & C & A); [lia|]. eapply boundary_byte; eauto. unfold alnum in A. lia.
  - intros i I. destruct (AL i I) as (c & C & A). exists c. split; auto. unfold alnum in A. lia.
Qed.
Print Assumptions C58_columns.
(** Hover, tag completion and quote completion scan the text again. They are answered at every
    cursor of every document whose text is clean. *)
Theorem C58_hover : forall U d cs void roots md parts providers lang ents opts p,
  textdoc_ok d -> clean (d_text d) -> parse U (d_text d) cs void = Ok roots ->
  word_column (d_text d) (offset_at d p) p ->
  exists h, do_hover U d cs md parts providers lang ents opts p roots = Ok h.
Proof.
  intros U d cs void roots md parts providers lang ents opts p HD HC HP CO. eapply hover_answers; eauto.
  intros a L A. apply CO; auto. intros i I. destruct (A i I) as (c & C1 & C2). eauto.
Qed.
Print Assumptions C58_hover.
Theorem C58_tag_complete : forall U d cs void roots providers lang p,
  textdoc_ok d -> clean (d_text d) -> parse U (d_text d) cs void = Ok roots ->
  exists r, do_tag_complete U d cs providers lang roots p = Ok r.
Proof. intros. eapply tag_complete_answers; eauto. Qed.
Print Assumptions C58_tag_complete.
Theorem C58_quote_complete : forall U d cs void roots settings p,
  textdoc_ok d -> clean (d_text d) -> parse U (d_text d) cs void = Ok roots ->
  exists r, do_quote_complete U d cs settings roots p = Ok r.
Proof. intros. eapply quote_complete_answers; eauto. Qed.
Print Assumptions C58_quote_complete.
(** Selection ranges cut the text of the innermost element out and scan it on its own: its last
    character must be ASCII too. Only the end tag could end it otherwise, when it has a name that is
    not ASCII and no '>' (see [C58_selection_refuted]). The text of the crate must round an offset that splits a character
    downwards. *)
Theorem C58_selection : forall U d cs void roots p,
  textdoc_ok d -> clean (d_text d) -> parse U (d_text d) cs void = Ok roots ->
  (forall o, o <= length (d_text d) -> offset_at d (position_at d o) <= o) ->
  (forall n a, innermost roots (offset_at d p) n -> n_ets n = Some a -> exists c, nth_error (d_text d) (n_end n - 1) = Some c /\ (c < 128)%N) ->
  exists rs, get_selection_range U d p roots cs = Ok rs.
Proof. intros. eapply selection_answers; eauto. Qed.
Print Assumptions C58_selection.
(** The columns of the editor round downwards. *)
Lemma off_pos_walk : forall l o p acc, off_walk l (pos_walk l o p) p acc <= acc + o.
Proof.
  induction l as [|c r IH]; intros o p acc; cbn [pos_walk off_walk]; [lia|]. destruct (o <? length (encode1 c)) eqn:Q.
  - unfold pos_ltb. rewrite !Nat.ltb_irrefl, andb_false_r. cbn. lia.
  - destruct (pos_ltb _ _); [|lia]. specialize (IH (o - length (encode1 c)) (next_pos p c r) (acc + length (encode1 c))). lia.
Qed.
Theorem C58_rounding : forall t o, offset_at (utf16_doc t) (position_at (utf16_doc t) o) <= o.
Proof. intros t o. apply (off_pos_walk _ _ _ 0). Qed.
Print Assumptions C58_rounding.
Lemma clean_tokens U t cs : Utf8 t -> clean t -> forall fuel sc, Good t sc -> measure t sc < fuel -> exists r, tokens U t false cs fuel sc = Ok r.
Proof.
  intros HU HC. induction fuel as [|fuel IH]; intros sc G M; [lia|]. cbn [tokens].
  destruct (clean_scan U t cs HU HC _ G) as (sc' & S & G'). rewrite S. cbn [bind].
  destruct (token_eqb (tok sc') EOS) eqn:T; [eauto|]. apply token_eqb_neq in T.
  pose proof (scan_measure U t false cs HU _ _ S T). destruct (IH sc') as ((l & f) & E); auto; [lia|]. rewrite E. cbn [bind]. eauto.
Qed.
(** Folding without a limit is answered too. *)
Theorem C58_folding : forall U d cs void, textdoc_ok d -> clean (d_text d) -> exists rs, get_folding_ranges U d None void cs = Ok rs.
Proof.
  intros U d cs void HD HC. pose proof (C34_ranges U d cs void HD) as H. unfold fold_tokens in H.
  destruct (clean_tokens U (d_text d) cs (do_utf8 d HD) HC (2 * length (d_text d) + 2) (scanner_new 0 WithinContent)) as ((l & f) & E).
  - intros _. right. right. reflexivity.
  - apply (start_measure d 0).
  - rewrite E in H. cbn [bind] in H. destruct H as (rs & H & _). eauto.
Qed.
Print Assumptions C58_folding.

(** ** Examples *)
(** A document in Chinese with names, values and text that are not ASCII. *)
Definition chinese : str :=
  bs "<div title=""" ++ encode [20013; 25991]%N ++ bs " en""><p lang=en>" ++ encode [20013; 25991; 233]%N ++ bs "</p><" ++ encode [233]%N ++ bs ">&amp;</" ++ encode [233]%N ++ bs "></div>" ++ [10%N].
Lemma chinese_ok : textdoc_ok (utf16_doc chinese).
Proof. apply C27_contract. exists (decode chinese). vm_compute. auto. Qed.
(** Decidable form of [clean]. *)
Definition is_clean (t : str) : bool :=
  forallb (fun c => negb (bad_char c)) (decode t) && match rev t with c :: _ => (c <? 128)%N | [] => true end.
Lemma is_clean_spec t : is_clean t = true -> clean t.
Proof.
  intros H. apply andb_prop in H as [A B]. split.
  - intros c I. rewrite forallb_forall in A. specialize (A c I). apply negb_true_iff in A. auto.
  - intros t' c E SC. rewrite E, rev_app_distr in B. unfold encode1 in B.
    destruct (c <? 128)%N eqn:Q; [lia|].
    destruct (c <? 2048)%N; [|destruct (c <? 65536)%N]; cbn [rev app] in B; lia.
Qed.
Lemma chinese_clean : clean chinese.
Proof. apply is_clean_spec. vm_compute. reflexivity. Qed.
(** Every service at every place of the document, the values with Chinese characters apart. *)
Definition answered (s : str) (o : nat) : bool :=
  match parse demo_unicode s false html5_void with
  | Ok roots =>
      let d := utf16_doc s in let p := position_at d o in
      match do_complete demo_unicode d false true [] [edits_provider] (bs "html") entities None (fun m => m) roots p,
            do_hover demo_unicode d false true [] [edits_provider] (bs "html") entities (mkHS true true) p roots,
            do_tag_complete demo_unicode d false [edits_provider] (bs "html") roots p,
            do_quote_complete demo_unicode d false None roots p, get_selection_range demo_unicode d p roots false with
      | Ok _, Ok _, Ok _, Ok _, Ok _ => true
      | _, _, _, _, _ => false
      end
  | _ => false
  end.
Example C58_demo : filter (fun o => negb (answered chinese o)) (seq 0 (Datatypes.S (length chinese))) = [12; 13; 14; 15; 16; 17; 18].
Proof. vm_compute. reflexivity. Qed.
Definition trouble_at (t : str) (o : nat) (k : token) : bool :=
  token_eqb (tk_type k) AttributeValue && (tk_off k <? o) && (o <=? tk_end k) &&
  existsb (fun i => match nth_error t i with Some c => (128 <=? c)%N | None => false end) (seq (tk_off k) (tk_end k - tk_off k)).
(** At 'en' in the value, in the text in Chinese and behind the element with the French name no token
    is in trouble (there are no bytes from 128 on around the cursor); in front of the space there is one. *)
Example C58_hypotheses :
  (exists roots, parse demo_unicode chinese false html5_void = Ok roots) /\
  (do l <- doc_tokens demo_unicode chinese false; Ok (map (fun o => existsb (trouble_at chinese o) l) [36; 40; 56; 67])) = Ok [false; false; false; false] /\
  (do l <- doc_tokens demo_unicode chinese false; Ok (map (fun k => (tk_off k, tk_end k)) (filter (trouble_at chinese 18) l))) = Ok [(11, 22)] /\
  get1 chinese 11 = Some DQUOTE /\ nth_error chinese 17 = Some 135%N /\
  (do roots <- parse demo_unicode chinese false html5_void;
   do r <- find_node_at roots 36; Ok (match r with Some (n, _) => (n_tag n, nth_error chinese (n_end n - 1)) | None => (None, None) end)) = Ok (Some (bs "p"), Some GT).
Proof. split; [|vm_compute; auto 10]. destruct (parse demo_unicode chinese false html5_void) as [r| |] eqn:E; [eauto|vm_compute in E; discriminate|vm_compute in E; discriminate]. Qed.

(** ** Findings *)
(** An element with a French name and an unfinished end tag: the request for selection ranges fails in
    its name, though the document is clean and was parsed. *)
Definition cut_end : str := bs "<" ++ encode [233%N] ++ bs "><p <type=""</" ++ encode [233%N] ++ bs "<b>".
Theorem C58_selection_refuted : exists roots, clean cut_end /\ textdoc_ok (utf16_doc cut_end) /\
  parse demo_unicode cut_end false html5_void = Ok roots /\
  get_selection_range demo_unicode (utf16_doc cut_end) (mkPos 0 1) roots false = Panic PSlice.
Proof.
  eexists. split; [apply is_clean_spec; vm_compute; reflexivity|]. split; [apply C27_contract; exists (decode cut_end); vm_compute; auto|].
  split; vm_compute; reflexivity.
Qed.
Print Assumptions C58_selection_refuted.
(** A no-break space in an end tag behind an unfinished start tag: the document is parsed, but
    completing the tag when '>' is typed fails. *)
Definition nbsp_end : str := bs "<p </b " ++ encode [160%N] ++ bs "></p>".
Theorem C58_tag_complete_refuted : exists roots, textdoc_ok (utf16_doc nbsp_end) /\
  parse demo_unicode nbsp_end false html5_void = Ok roots /\ get1 nbsp_end 9 = Some GT /\
  do_tag_complete demo_unicode (utf16_doc nbsp_end) false [edits_provider] (bs "html") roots (position_at (utf16_doc nbsp_end) 10) = Panic PSlice.
Proof.
  eexists. split; [apply C27_contract; exists (decode nbsp_end); vm_compute; auto|]. split; [vm_compute; reflexivity|].
  split; vm_compute; reflexivity.
Qed.
Print Assumptions C58_tag_complete_refuted.
