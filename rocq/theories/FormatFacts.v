(** * Characters other than white space, and what the string functions of the
    formatter do to them. *)
From Verif Require Import Base Stream Scanner BaseFacts ScannerFacts ScanProps ScanLocal Tree Parser TextDoc Formatter.
From Coq Require Import ZifyBool ZifyNat ZifyN.

(** The characters of a text that are no white space. *)
Definition ink (s : str) : list N := filter (fun c => negb (is_uspace c)) (decode s).

Lemma decode_app a b : Utf8 a -> decode (a ++ b) = decode a ++ decode b.
Proof.
  intros (cs & H & ->). rewrite decode_encode by auto. induction cs as [|c cs IH]; auto.
  cbn [forallb] in H. apply andb_true_iff in H as [Hc H]. specialize (IH H).
  rewrite encode_cons, <- app_assoc. cbn [app]. rewrite <- IH. clear IH.
  apply encode1_shape in Hc. destruct Hc; subst; cbn [app decode].
  - replace (c <? 128)%N with true by lia. auto.
  - replace (a <? 128)%N with false by lia. replace (a <? 224)%N with true by lia. auto.
  - replace (a <? 128)%N with false by lia. replace (a <? 224)%N with false by lia.
    replace (a <? 240)%N with true by lia. auto.
  - replace (a <? 128)%N with false by lia. replace (a <? 224)%N with false by lia.
    replace (a <? 240)%N with false by lia. auto.
Qed.
Lemma ink_app a b : Utf8 a -> ink (a ++ b) = ink a ++ ink b.
Proof. intros H. unfold ink. rewrite decode_app by auto. apply filter_app. Qed.
Lemma utf8_app a b : Utf8 a -> Utf8 b -> Utf8 (a ++ b).
Proof.
  intros (x & X & ->) (y & Y & ->). exists (x ++ y). rewrite forallb_app, X, Y, encode_app. auto.
Qed.
Lemma utf8_nil : Utf8 [].
Proof. exists []. auto. Qed.
Lemma utf8_decode s : Utf8 s -> forallb scalar (decode s) = true /\ encode (decode s) = s.
Proof. intros (x & X & ->). rewrite decode_encode by auto. auto. Qed.
Lemma ascii_one b : (b < 128)%N -> Utf8 [b].
Proof. intros H. apply ascii_utf8. cbn. lia. Qed.
Lemma ascii_dec x : all_ascii x = true -> decode x = x.
Proof.
  induction x as [|b x IH]; cbn [all_ascii forallb decode]; auto.
  intros H. apply andb_true_iff in H as [-> H]. rewrite IH; auto.
Qed.

(** ** White space *)
Definition white (s : str) : Prop := Utf8 s /\ ink s = [].
Lemma white_nil : white [].
Proof. split; [apply utf8_nil|auto]. Qed.
Lemma white_app a b : white a -> white b -> white (a ++ b).
Proof. intros [A1 A2] [B1 B2]. split; [apply utf8_app; auto|]. rewrite ink_app, A2, B2; auto. Qed.
Lemma white_byte b : (b < 128)%N -> is_uspace b = true -> white [b].
Proof.
  intros H S. split; [apply ascii_one; auto|]. unfold ink. rewrite ascii_dec by (cbn; lia).
  cbn [filter]. rewrite S. auto.
Qed.
Lemma white_rep b n : (b < 128)%N -> is_uspace b = true -> white (rep b n).
Proof.
  intros H S. unfold rep. induction n as [|n IH]; [apply white_nil|]. cbn [repeat].
  apply (white_app [b]); auto. apply white_byte; auto.
Qed.
Lemma white_lf : white [LF].
Proof. apply white_byte; reflexivity. Qed.
Lemma white_sp : white [SP].
Proof. apply white_byte; reflexivity. Qed.
Lemma white_tab : white [TAB].
Proof. apply white_byte; reflexivity. Qed.
Lemma white_indent o level : white (get_indent o level).
Proof. unfold get_indent. destruct (insert_spaces o); apply white_rep; reflexivity. Qed.
Lemma white_attr_indent o level : white (get_attr_indent o level).
Proof.
  unfold get_attr_indent. apply white_app; [apply white_indent|].
  destruct (wrap_attributes_indent_size o), (insert_spaces o); try (apply white_rep; reflexivity);
    try apply white_lf. destruct (0 <? n); [apply white_lf|apply white_nil].
Qed.
Lemma ink_white a b : white a -> ink (a ++ b) = ink b.
Proof. intros [A1 A2]. rewrite ink_app, A2; auto. Qed.
Lemma ink_white_r a b : Utf8 a -> white b -> ink (a ++ b) = ink a.
Proof. intros H [B1 B2]. rewrite ink_app, B2, app_nil_r; auto. Qed.

(** ** trim, collapse *)
Lemma drop_while_app p l : exists w, l = w ++ drop_while p l /\ forallb p w = true.
Proof.
  induction l as [|c l (w & E & F)]; cbn [drop_while]; [exists []; auto|].
  destruct (p c) eqn:P; [exists (c :: w)|exists []; auto]. cbn. rewrite P, F, <- E. auto.
Qed.
Lemma filter_space w : forallb is_uspace w = true -> filter (fun c => negb (is_uspace c)) w = [].
Proof.
  induction w as [|c w IH]; cbn [forallb filter]; auto. intros H.
  apply andb_true_iff in H as [-> H]. cbn [negb]. auto.
Qed.
Lemma trim_chars_split l : exists a b, l = a ++ trim_chars l ++ b /\ forallb is_uspace a = true /\ forallb is_uspace b = true.
Proof.
  unfold trim_chars. destruct (drop_while_app is_uspace l) as (a & A & FA). set (m := drop_while is_uspace l) in *.
  destruct (drop_while_app is_uspace (rev m)) as (b & B & FB). exists a, (rev b). split; [|split; auto].
  - rewrite <- rev_app_distr, <- B, rev_involutive. auto.
  - rewrite forallb_forall in *. intros x X. apply FB. apply in_rev. auto.
Qed.
Lemma filter_sub {A} (p q : A -> bool) l : forallb q l = true -> forallb q (filter p l) = true.
Proof. rewrite !forallb_forall. intros H x X. apply filter_In in X as [X _]. auto. Qed.

Lemma ink_encode l : forallb scalar l = true -> ink (encode l) = filter (fun c => negb (is_uspace c)) l.
Proof. intros H. unfold ink. rewrite decode_encode; auto. Qed.

Lemma trim_utf8 s : Utf8 s -> Utf8 (trim s) /\ ink (trim s) = ink s.
Proof.
  intros H. apply utf8_decode in H as [H1 H2]. unfold trim.
  destruct (trim_chars_split (decode s)) as (a & b & E & A & B).
  assert (S : forallb scalar (trim_chars (decode s)) = true).
  { rewrite E, !forallb_app, !andb_true_iff in H1. tauto. }
  split; [eexists; split; eauto|]. rewrite ink_encode by auto. unfold ink. rewrite E at 2.
  rewrite !filter_app, (filter_space a), (filter_space b), app_nil_r; auto.
Qed.
Lemma trim_start_utf8 s : Utf8 s -> Utf8 (trim_start s) /\ ink (trim_start s) = ink s.
Proof.
  intros H. apply utf8_decode in H as [H1 H2]. unfold trim_start, trim_start_chars.
  destruct (drop_while_app is_uspace (decode s)) as (a & E & A).
  assert (S : forallb scalar (drop_while is_uspace (decode s)) = true).
  { rewrite E, forallb_app, andb_true_iff in H1. tauto. }
  split; [eexists; split; eauto|]. rewrite ink_encode by auto. unfold ink. rewrite E at 2.
  rewrite filter_app, (filter_space a); auto.
Qed.
Lemma collapse_chars_ink l : forall b, filter (fun c => negb (is_uspace c)) (collapse_chars b l) =
  filter (fun c => negb (is_uspace c)) l.
Proof.
  induction l as [|c l IH]; intros b; cbn [collapse_chars]; auto.
  destruct (is_uspace c) eqn:E.
  - cbn [filter]. rewrite E. cbn [negb]. destruct b; auto. cbn [filter].
    change (is_uspace SP) with true. cbn [negb]. auto.
  - cbn [filter]. rewrite E. cbn [negb]. rewrite IH. auto.
Qed.
Lemma collapse_chars_scalar l : forall b, forallb scalar l = true -> forallb scalar (collapse_chars b l) = true.
Proof.
  induction l as [|c l IH]; intros b H; cbn [collapse_chars]; auto. cbn [forallb] in H.
  apply andb_true_iff in H as [Hc H]. destruct (is_uspace c), b; cbn [forallb]; rewrite ?IH, ?Hc; auto.
Qed.
Lemma collapse_utf8 s : Utf8 s -> Utf8 (collapse s) /\ ink (collapse s) = ink s.
Proof.
  intros H. apply utf8_decode in H as [H1 H2]. unfold collapse.
  assert (S := collapse_chars_scalar _ false H1). split; [eexists; split; eauto|].
  rewrite ink_encode, collapse_chars_ink by auto. auto.
Qed.
Lemma line_utf8 s : Utf8 s -> Utf8 (collapse (trim s)) /\ ink (collapse (trim s)) = ink s.
Proof.
  intros H. apply trim_utf8 in H as [H1 H2]. apply collapse_utf8 in H1 as [H3 H4]. split; auto. congruence.
Qed.

(** ** Lines *)
Lemma split_ne s : split_lf s <> [].
Proof. destruct s as [|b s]; cbn [split_lf]; [discriminate|]. destruct (N.eqb b LF); [discriminate|]. destruct (split_lf s); discriminate. Qed.
Lemma split_cons s : exists l ls, split_lf s = l :: ls.
Proof. pose proof (split_ne s). destruct (split_lf s); [congruence|eauto]. Qed.
Lemma split_join s : join [LF] (split_lf s) = s.
Proof.
  induction s as [|b s IH]; auto. cbn [split_lf]. destruct (split_cons s) as (l & ls & E). rewrite E in *.
  destruct (N.eqb b LF) eqn:B.
  - cbn [join app] in *. assert (b = LF) by lia. subst b. f_equal. auto.
  - destruct ls; cbn [join app] in *; f_equal; auto.
Qed.
Lemma utf8_split_at a b r : (b < 128)%N -> Utf8 (a ++ b :: r) -> Utf8 a /\ Utf8 r.
Proof.
  intros B H. assert (N : nth_error (a ++ b :: r) (length a) = Some b).
  { rewrite nth_error_app2, Nat.sub_diag by lia. auto. }
  pose proof (Bd_at_ascii _ _ _ H N B) as B1. pose proof (Bd_after_ascii _ _ _ H N B) as B2.
  pose proof (Bd_sub _ _ _ (Bd_0 _ H) B1 ltac:(lia)) as U1.
  pose proof (Bd_sub _ _ _ B2 (Bd_len _ H) ltac:(rewrite app_length; cbn; lia)) as U2.
  split.
  - revert U1. unfold sub. rewrite Nat.sub_0_r. cbn [skipn]. rewrite firstn_app, Nat.sub_diag, firstn_all.
    cbn [firstn]. rewrite app_nil_r. auto.
  - revert U2. unfold sub. rewrite app_length. cbn [length].
    replace (length a + 1) with (length (a ++ [b])) by (rewrite app_length; auto).
    change (b :: r) with ([b] ++ r). rewrite app_assoc, skipn_app, skipn_all, Nat.sub_diag. cbn [app skipn].
    rewrite firstn_all2; auto. rewrite app_length. cbn. lia.
Qed.
Lemma split_utf8 s : Utf8 s -> Forall Utf8 (split_lf s).
Proof.
  intros H. rewrite <- (split_join s) in H. revert H. induction (split_lf s) as [|x l IH]; intros H; auto.
  destruct l as [|y l]; [constructor; auto|].
  change (join [LF] (x :: y :: l)) with (x ++ LF :: join [LF] (y :: l)) in H.
  apply utf8_split_at in H as [H1 H2]; [constructor; auto|reflexivity].
Qed.
Lemma join_ink sep l : white sep -> Forall Utf8 l -> Utf8 (join sep l) /\ ink (join sep l) = flat_map ink l.
Proof.
  intros W H. induction l as [|x l IH]; [split; [apply utf8_nil|auto]|]. inv H. destruct (IH H3) as [I1 I2].
  destruct l as [|y l]; [cbn [join flat_map]; rewrite app_nil_r; auto|].
  change (join sep (x :: y :: l)) with (x ++ sep ++ join sep (y :: l)). split.
  - apply utf8_app; auto. apply utf8_app; auto. apply W.
  - rewrite ink_app, ink_white, I2 by auto. auto.
Qed.
Lemma strip_cr_utf8 x : Utf8 x -> Utf8 (strip_cr x) /\ ink (strip_cr x) = ink x.
Proof.
  intros H. unfold strip_cr. destruct (rev x) as [|b r] eqn:E; auto. destruct (N.eqb b CR) eqn:B; auto.
  assert (b = CR) by lia. subst b. apply (f_equal (@rev N)) in E. rewrite rev_involutive in E. cbn [rev] in E.
  subst x. apply utf8_split_at in H as [H _]; [|reflexivity]. split; auto.
  rewrite ink_white_r; auto. apply white_byte; reflexivity.
Qed.
Lemma lines_of_ink l : Forall Utf8 l -> Forall Utf8 (lines_of l) /\ flat_map ink (lines_of l) = flat_map ink l.
Proof.
  intros H. induction l as [|x l IH]; [cbn; auto|]. inv H. destruct (IH H3) as [I1 I2].
  destruct l as [|y l].
  - cbn [lines_of]. destruct x; cbn [flat_map]; auto.
  - change (lines_of (x :: y :: l)) with (strip_cr x :: lines_of (y :: l)).
    apply strip_cr_utf8 in H2 as [S1 S2]. split; [constructor; auto|]. cbn [flat_map]. rewrite I2, S2. auto.
Qed.
Lemma lines_ink s : Utf8 s -> Forall Utf8 (lines s) /\ flat_map ink (lines s) = ink s.
Proof.
  intros H. unfold lines. pose proof (split_utf8 s H) as S. destruct (lines_of_ink _ S) as [I1 I2]. split; auto.
  rewrite I2. destruct (join_ink [LF] (split_lf s) white_lf S) as [_ J]. rewrite split_join in J. auto.
Qed.

Lemma text_lines_ink o level count ends ls : forall i p, Forall Utf8 ls ->
  Utf8 (text_lines o level count ends i p ls) /\ ink (text_lines o level count ends i p ls) = flat_map ink ls.
Proof.
  induction ls as [|l ls IH]; intros i p H; cbn [text_lines flat_map]; [split; [apply utf8_nil|auto]|].
  inv H. apply line_utf8 in H2 as [L1 L2]. pose proof (white_indent o level) as W.
  set (x := collapse (trim l)) in *. destruct (0 <? length x) eqn:Z.
  - destruct (IH (S i) 0 H3) as [I1 I2]. split.
    + apply utf8_app; [apply white_lf|]. apply utf8_app; [apply W|]. apply utf8_app; auto.
    + rewrite ink_white, ink_white, ink_app, L2, I2 by (auto using white_lf). auto.
  - assert (ink l = []) by (rewrite <- L2; destruct x; [auto|discriminate]). rewrite H, app_nil_l.
    destruct (_ && _) eqn:Q.
    + destruct (IH (S i) (S p) H3) as [I1 I2].
      assert (W' : white (if indent_empty_lines o then get_indent o level else [])).
      { destruct (indent_empty_lines o); auto using white_nil. }
      split.
      * apply utf8_app; [apply white_lf|]. apply utf8_app; [apply W'|auto].
      * rewrite ink_white, ink_white by (auto using white_lf). auto.
    + apply IH; auto.
Qed.

Lemma beautify_text_ink o level s : Utf8 s ->
  Utf8 (beautify_text o s level) /\ ink (beautify_text o s level) = ink s.
Proof.
  intros H. unfold beautify_text. destruct (contains_byte LF s); [|apply line_utf8; auto].
  pose proof (lines_ink s H) as [L1 L2]. rewrite <- L2. apply text_lines_ink; auto.
Qed.

(** ** reindent *)
Lemma ends_lf_spec s : ends_lf s = true -> exists r, s = r ++ [LF].
Proof.
  unfold ends_lf. destruct (rev s) as [|b r] eqn:E; [discriminate|]. intros B. exists (rev r).
  apply (f_equal (@rev N)) in E. rewrite rev_involutive in E. cbn [rev] in E. subst s. repeat f_equal. lia.
Qed.
Lemma reindent_ink o level b s : Utf8 s -> Utf8 (reindent o level b s) /\ ink (reindent o level b s) = ink s.
Proof.
  intros H. unfold reindent. destruct (0 <? level); [|auto].
  set (indent := if insert_spaces o then rep SP (tab_size o * level) else rep TAB level).
  assert (W : white indent) by (unfold indent; destruct (insert_spaces o); apply white_rep; reflexivity).
  assert (W1 : white (LF :: indent)) by (apply (white_app [LF]); auto using white_lf).
  set (s' := if ends_lf s then _ else _).
  assert (X : Utf8 s' /\ ink s' = ink s).
  { unfold s'. destruct (ends_lf s) eqn:E.
    - apply ends_lf_spec in E as (r & ->). rewrite app_length. cbn [length].
      replace (length r + 1 - 1) with (length r) by lia. rewrite firstn_app, Nat.sub_diag, firstn_all. cbn [firstn].
      rewrite app_nil_r. apply utf8_split_at in H as [H _]; [|reflexivity].
      destruct (join_ink (LF :: indent) (split_lf r) W1 (split_utf8 _ H)) as [J1 J2].
      destruct (join_ink [LF] (split_lf r) white_lf (split_utf8 _ H)) as [_ J3]. rewrite split_join in J3.
      split; [apply utf8_app; auto; apply white_lf|]. rewrite !ink_white_r by auto using white_lf. congruence.
    - destruct (join_ink (LF :: indent) (split_lf s) W1 (split_utf8 _ H)) as [J1 J2].
      destruct (join_ink [LF] (split_lf s) white_lf (split_utf8 _ H)) as [_ J3]. rewrite split_join in J3.
      split; auto. congruence. }
  destruct X as [X1 X2]. destruct b; auto. split; [apply utf8_app; auto; apply W|]. rewrite ink_white; auto.
Qed.
