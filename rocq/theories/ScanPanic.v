(** * When the scanner panics. *)
From Verif Require Import Base Stream Scanner BaseFacts ScannerFacts ScanStep ScanProps.
From Coq Require Import ZifyBool ZifyNat ZifyN.

(** [char_at t i c]: character [c] stands at byte offset [i] of the text. *)
Definition char_at (t : str) (i : nat) (c : N) : Prop :=
  exists c1 c2, forallb scalar (c1 ++ c :: c2) = true /\
                t = encode (c1 ++ c :: c2) /\ i = length (encode c1).

(** Non-ASCII white space and C1 control characters. *)
Definition bad_char (c : N) : bool := ((128 <=? c)%N && (is_uspace c || is_c1 c))%bool.

(** Cause (a): white space was seen in this tag and the scanner has just taken
    the first byte of a bad character as a token of its own. *)
Definition after_bad_char (t : str) (sc : scanner) : Prop :=
  st sc = WithinTag /\ has_space sc = true /\
  exists i c, char_at t i c /\ bad_char c = true /\ pos sc = i + 1.

(** Cause (b): the value of a type attribute is opened by a quote that never
    closes and the text ends with a non-ASCII character. *)
Definition type_value_at_end (t : str) (sc : scanner) : Prop :=
  st sc = BeforeAttributeValue /\ last_attr sc = Some (bs "type") /\
  exists q c t', (q = SQUOTE \/ q = DQUOTE) /\ nth_error t (pos sc) = Some q /\
    (forall i, pos sc < i -> nth_error t i <> Some q) /\
    t = t' ++ encode1 c /\ scalar c = true /\ (128 <= c)%N.

Section P.
Variable U : unicode.
Variable t : str.
Variable emit cs : bool.
Hypothesis HU : Utf8 t.
Notation scan := (scan U t emit cs).
Notation len := (length t).
Notation outcome := (outcome U t emit cs).

Definition Good (sc : scanner) : Prop :=
  pos sc <= len ->
  Bd t (pos sc) \/ (st sc = WithinTag /\ has_space sc = false) \/ st sc = WithinContent.

Lemma bd_slice p : Bd t p -> slice t p len = Ok (skipn p t).
Proof. intros H. apply slice_rest_ok; [eapply Bd_le; eauto|apply Bd_boundary; auto]. Qed.

Lemma regexp_ok m p : Bd t p -> exists r, adv_if_regexp m t p = Ok r.
Proof. intros H. unfold adv_if_regexp. rewrite bd_slice by auto. simpl. eauto. Qed.

Lemma name_ok m p : Bd t p -> exists r, name_of U t cs m p = Ok r.
Proof. intros H. unfold name_of. destruct (regexp_ok m p H) as (r & ->). simpl. eauto. Qed.

Lemma rest_ok sc p : exists sc', scan_within_tag_rest t emit sc p = Ok sc'.
Proof.
  unfold scan_within_tag_rest. destruct (adv_if_chars _ _ _); [eauto|].
  destruct (adv_if_char _ _ _); [eauto|]. destruct (_ && _); eauto.
Qed.

Lemma within_tag_safe sc : Bd t (pos sc) \/ has_space sc = false ->
  exists sc', scan_within_tag U t emit cs sc = Ok sc'.
Proof.
  intros H. unfold scan_within_tag, eos_or. destruct (eos t (pos sc)); [eauto|].
  destruct (skip_ws t (pos sc)); [eauto|].
  destruct (has_space sc); [|apply rest_ok].
  destruct H as [H|H]; [|discriminate].
  unfold next_attribute_name. destruct (name_ok m_attr_name _ H) as ([[n e]|] & ->); simpl; [eauto|].
  apply rest_ok.
Qed.

Lemma within_end_tag_safe sc : exists sc', scan_within_end_tag t emit sc = Ok sc'.
Proof.
  unfold scan_within_end_tag, eos_or. destruct (eos t (pos sc)); [eauto|].
  destruct (skip_ws t (pos sc)); [eauto|].
  destruct (adv_if_char _ _ _); [eauto|]. destruct (_ && _); eauto.
Qed.

Lemma content_safe sc : exists sc', scan_content t sc = Ok sc'.
Proof.
  unfold scan_content, eos_or. destruct (eos t (pos sc)); [eauto|].
  destruct (adv_if_char t (pos sc) LT) as [p|] eqn:E; [|eauto].
  apply adv_if_char_some in E as [E ->].
  destruct (_ && _).
  - destruct (adv_if_chars _ _ _); [eauto|].
    destruct (regexp_ok m_doctype (pos sc + 1)) as ([[a b]|] & ->).
    + eapply Bd_after_ascii; eauto. reflexivity.
    + simpl. eauto.
    + simpl. destruct (adv_if_char _ _ _); eauto.
  - destruct (adv_if_char _ _ _); eauto.
Qed.

(** The last byte of a text is no character boundary exactly when the text ends
    with a non-ASCII character. *)
Lemma last_not_boundary : is_boundary t (len - 1) = false ->
  exists t' c, t = t' ++ encode1 c /\ scalar c = true /\ (128 <= c)%N.
Proof.
  intros H. destruct HU as (cs' & S & ->).
  destruct cs' as [|c0 r] using rev_ind; [discriminate|]. clear IHr.
  rewrite forallb_app in S. apply andb_true_iff in S as [S1 S2]. simpl in S2.
  rewrite andb_true_r in S2. rewrite encode_app in *. change (encode [c0]) with (encode1 c0 ++ []) in *.
  rewrite app_nil_r in *. exists (encode r), c0. repeat split; auto.
  destruct (N.lt_ge_cases c0 128) as [L|L]; auto. exfalso.
  assert (E : encode1 c0 = [c0]) by (unfold encode1; replace (c0 <? 128)%N with true by lia; auto).
  rewrite E, app_length in H. simpl in H.
  rewrite (boundary_byte _ _ c0) in H; [discriminate| |auto].
  rewrite nth_error_app2 by lia. replace (length (encode r) + 1 - 1 - length (encode r)) with 0 by lia. auto.
Qed.

Lemma quoted_safe sc : Bd t (pos sc) -> st sc = BeforeAttributeValue ->
  (exists sc', scan_quoted U t emit cs sc (pos sc) (pos sc) = Ok sc') \/
  (scan_quoted U t emit cs sc (pos sc) (pos sc) = Panic PSlice /\ type_value_at_end t sc).
Proof.
  intros HB Hst. unfold scan_quoted.
  assert (F : exists sc', scan_within_tag U t emit cs (set_space false (set_pos (pos sc) (set_st WithinTag sc))) = Ok sc')
    by (apply within_tag_safe; auto).
  unfold peek. destruct (nth_error t (pos sc)) as [ch|] eqn:E; [|left; exact F].
  destruct (N.eqb ch SQUOTE || N.eqb ch DQUOTE) eqn:Q; [|left; exact F]. clear F.
  assert (Hq : ch = SQUOTE \/ ch = DQUOTE)
      by (apply orb_true_iff in Q as [Q|Q]; apply N.eqb_eq in Q; auto).
  assert (Hlt : (ch < 128)%N) by (destruct Hq; subst; reflexivity).
  pose proof (nth_error_lt _ _ _ E) as Hp.
  destruct (adv_until_char t (pos sc + 1) ch) as [found q] eqn:A.
  destruct (adv_until_char_spec t (pos sc + 1) ch ltac:(lia)) as ((F1 & F2 & F3 & F4) & F5 & F6).
  rewrite A in *. cbn [fst snd] in *.
  destruct (opt_beq (last_attr sc) (bs "type")) eqn:T; [|left; eexists; reflexivity].
  assert (B1 : Bd t (pos sc + 1)) by (eapply Bd_after_ascii; eauto).
  destruct found.
  - left. specialize (F5 eq_refl). replace (q + 1 - 1) with q by lia.
    assert (q <? pos sc + 1 = false) as -> by lia.
    destruct (slice t (pos sc + 1) q) eqn:S.
    + eexists; reflexivity.
    + exfalso. apply slice_panic in S as (_ & S).
      assert (Bd t q) by (eapply Bd_at_ascii; eauto).
      rewrite !Bd_boundary in S by auto. intuition (try lia; try discriminate).
    + exfalso; eapply slice_no_fuel; eauto.
  - specialize (F6 eq_refl). subst q.
    destruct (len - 1 <? pos sc + 1) eqn:C.
    + left. assert (len - 1 = pos sc) as -> by lia.
      destruct (slice t (pos sc) (pos sc + 1)) eqn:S.
      * eexists; reflexivity.
      * exfalso. apply slice_panic in S as (_ & S). rewrite !Bd_boundary in S by auto.
        intuition (try lia; try discriminate).
      * exfalso; eapply slice_no_fuel; eauto.
    + destruct (slice t (pos sc + 1) (len - 1)) eqn:S.
      * left; eexists; reflexivity.
      * right. apply slice_panic in S as (-> & S). rewrite (Bd_boundary _ _ B1) in S.
        assert (S' : is_boundary t (len - 1) = false) by (intuition (try lia; try discriminate)).
        split; [reflexivity|]. apply last_not_boundary in S' as (t' & c & H1 & H2 & H3).
        split; [auto|]. split.
        { destruct (last_attr sc) as [a|]; [|discriminate]. apply beq_eq in T. subst a. reflexivity. }
        exists ch, c, t'. repeat split; auto.
        intros i Hi N. destruct (Nat.lt_ge_cases i len) as [L|L].
        -- apply (F3 i); auto; lia.
        -- rewrite nth_error_ge in N by auto. discriminate.
      * exfalso; eapply slice_no_fuel; eauto.
Qed.

Lemma before_value_safe sc : Bd t (pos sc) -> st sc = BeforeAttributeValue ->
  (exists sc', scan_before_attribute_value U t emit cs sc = Ok sc') \/
  (scan_before_attribute_value U t emit cs sc = Panic PSlice /\ type_value_at_end t sc).
Proof.
  intros HB Hst. unfold scan_before_attribute_value, eos_or.
  destruct (eos t (pos sc)); [left; eauto|]. destruct (skip_ws t (pos sc)) eqn:W; [left; eauto|].
  cbv zeta. destruct (regexp_ok m_value _ HB) as (r & R). rewrite R. cbn [bind].
  destruct r as [[s e]|]; [|apply quoted_safe; auto]. left.
  apply adv_if_regexp_some in R as (R1 & R2 & a' & b' & M & -> & ->).
  apply m_value_some in M as (-> & Eb & Hb & Hl). rewrite skipn_length in Hl.
  assert (GB : (match peek t (pos sc) with
                | Some c => match peek_back t (pos sc) with
                            | Some d => N.eqb c GT && N.eqb d SLASH
                            | None => false end
                | None => false end) = false).
  { unfold peek. destruct (nth_error t (pos sc)) as [c|] eqn:C; auto.
    destruct (peek_back t (pos sc)); auto. destruct (N.eqb_spec c GT) as [->|]; auto.
    exfalso. rewrite (skipn_cons _ _ _ C) in Eb. change (char_run val_char (GT :: skipn (pos sc + 1) t)) with 0 in Eb. lia. }
  rewrite GB. rewrite Nat.add_0_r. cbn iota.
  assert (Gen : forall p v, length v = p - pos sc -> pos sc < p ->
    exists sc', (if 0 <? length v
      then Ok (finish (set_space false (if opt_beq (last_attr sc) (bs "type") then set_last_type (nonempty v) sc else sc)) (pos sc) AttributeValue None p WithinTag)
      else scan_quoted U t emit cs (if opt_beq (last_attr sc) (bs "type") then set_last_type (nonempty v) sc else sc) (pos sc) p) = Ok sc').
  { intros p v -> L. replace (0 <? p - pos sc) with true by lia. eauto. }
  assert (Sl : forall q, (q < 128)%N -> nth_error t (pos sc + b') = Some q ->
    slice t (pos sc + b' + 1 - (pos sc + b' - pos sc) - 1) (pos sc + b' + 1) = Ok (sub t (pos sc) (pos sc + b' + 1))).
  { intros q Lq Hq. pose proof (nth_error_lt _ _ _ Hq).
    replace (pos sc + b' + 1 - (pos sc + b' - pos sc) - 1) with (pos sc) by lia.
    apply slice_ok. repeat split; auto; try lia. apply Bd_boundary. eapply Bd_after_ascii; eauto. }
  destruct (adv_if_char t (pos sc + b') SQUOTE) as [p|] eqn:S1.
  - apply adv_if_char_some in S1 as [S1 ->]. rewrite (Sl SQUOTE) by (auto; reflexivity). cbn [bind].
    apply nth_error_lt in S1. apply Gen; [rewrite sub_length by lia; auto|lia].
  - destruct (adv_if_char t (pos sc + b') DQUOTE) as [p|] eqn:S2.
    + apply adv_if_char_some in S2 as [S2 ->]. rewrite (Sl DQUOTE) by (auto; reflexivity). cbn [bind].
      apply nth_error_lt in S2. apply Gen; [rewrite sub_length by lia; auto|lia].
    + cbn [bind]. apply Gen; [rewrite sub_length by lia; lia|lia].
Qed.

Lemma scan_safe sc : Good sc ->
  (exists sc', scan sc = Ok sc') \/ (scan sc = Panic PSlice /\ type_value_at_end t sc).
Proof.
  intros HG. destruct (Nat.le_gt_cases len (pos sc)) as [L|L].
  { left. rewrite scan_at_end by auto. eauto. }
  specialize (HG ltac:(lia)).
  rewrite (scan_internal U t emit cs HU). unfold internal_scan.
  destruct (st sc) eqn:S;
    try (assert (HB : Bd t (pos sc)) by (destruct HG as [|[[? _]|?]]; auto; congruence)).
  - left. apply content_safe.
  - left. unfold scan_after_opening_start_tag, eos_or. destruct (eos t (pos sc)); [eauto|].
    unfold next_element_name. destruct (name_ok (m_element_name U) _ HB) as ([[n e]|] & ->); cbn [bind]; [eauto|].
    destruct (skip_ws _ _); [eauto|]. cbv zeta. destruct (_ <? _); [eauto|].
    apply within_tag_safe; auto.
  - left. unfold scan_after_opening_end_tag, eos_or. destruct (eos t (pos sc)); [eauto|].
    unfold next_element_name. destruct (name_ok (m_element_name U) _ HB) as ([[n e]|] & ->); cbn [bind]; [eauto|].
    destruct (skip_ws _ _); [eauto|]. cbv zeta. destruct (_ <? _); [eauto|].
    apply within_end_tag_safe.
  - left. unfold scan_doctype, eos_or. destruct (eos t (pos sc)); [eauto|].
    destruct (adv_if_char _ _ _); eauto.
  - left. apply within_tag_safe. destruct HG as [|[[_ ?]|?]]; auto; congruence.
  - left. apply within_end_tag_safe.
  - left. unfold scan_comment, eos_or. destruct (eos t (pos sc)); [eauto|].
    destruct (adv_if_chars _ _ _); eauto.
  - left. unfold scan_script, eos_or. destruct (eos t (pos sc)); [eauto|].
    destruct (script_loop_spec t HU len 1 (pos sc) HB ltac:(lia)) as (fin & q & -> & _). cbn [bind].
    destruct fin; [eauto|]. destruct (_ <? _); [eauto|]. apply content_safe.
  - left. unfold scan_style, eos_or. destruct (eos t (pos sc)); [eauto|].
    unfold adv_until_regexp. rewrite bd_slice by auto. cbn [bind].
    destruct (_ <? _); [eauto|]. apply content_safe.
  - left. unfold scan_after_attribute_name, eos_or. destruct (eos t (pos sc)); [eauto|].
    destruct (skip_ws _ _); [eauto|]. destruct (adv_if_char _ _ _); [eauto|].
    apply within_tag_safe; auto.
  - apply before_value_safe; auto.
Qed.

(** ** Positions after a step *)
Lemma bd_first_byte p b e : first_byte t p b e -> (b < 128)%N -> Bd t e.
Proof.
  intros (F1 & F2 & F3 & [F4|F4]) L; [subst; apply Bd_len; auto|eapply Bd_at_ascii; eauto].
Qed.
Lemma bd_first_str p x e : first_str t p x e -> x <> [] -> all_ascii x = true -> Bd t e.
Proof.
  intros (F1 & F2 & F3 & [F4|[F4 _]]) N A; [eapply Bd_at_prefix; eauto|subst; apply Bd_len; auto].
Qed.
Lemma bd_ws p e : skip_ws t p = Some e -> Bd t e.
Proof.
  intros H. apply skip_ws_some in H as (H1 & H2 & H3 & _).
  destruct (H3 (e - 1)) as (b & B1 & B2); [lia|lia|].
  replace e with (e - 1 + 1) by lia. eapply Bd_after_ascii; eauto. unfold is_ws in B2. lia.
Qed.
Lemma bd_elem p e : elem_name U t p e -> Bd t p /\ Bd t e.
Proof.
  intros (H1 & H2 & H3 & H4). assert (HB : Bd t p) by (apply boundary_Bd; auto; lia). split; auto.
  apply m_element_name_some in H4 as (_ & _ & _ & c & w & D & _ & E).
  destruct (Bd_skipn _ _ HB) as (l & Sl & El).
  destruct l as [|c' l]; [rewrite El in D; discriminate|].
  assert (Sc : scalar c' = true) by (simpl in Sl; apply andb_true_iff in Sl; tauto).
  rewrite El, decode1_encode in D by auto. inv D.
  replace e with (p + length (encode1 c) + char_run (name_char U) (skipn (p + length (encode1 c)) t)).
  - apply Bd_char_run. replace (encode1 c) with (encode [c]) by (simpl; apply app_nil_r).
    apply Bd_advance with (cs2 := l); auto.
  - rewrite skipn_skipn in E. replace (length (encode1 c) + p) with (p + length (encode1 c)) in E by lia. lia.
Qed.
Lemma bd_attr p e : attr_name t p e -> Bd t e.
Proof.
  intros (H1 & H2 & H3 & H4). assert (HB : Bd t p) by (apply boundary_Bd; auto; lia).
  replace e with (p + char_run attr_char (skipn p t)) by lia. apply Bd_char_run. auto.
Qed.
Lemma bd_plain p e : plain_value t p e -> Bd t e.
Proof.
  intros (H1 & H2 & H3 & n & H4 & H5 & H6). assert (HB : Bd t p) by (apply boundary_Bd; auto; lia).
  assert (HB' : Bd t (p + n)) by (rewrite <- H5; apply Bd_char_run; auto).
  destruct H6 as [[-> [Q|Q]]|[-> _]]; auto; eapply Bd_after_ascii; eauto; reflexivity.
Qed.
Lemma bd_quoted p e : quoted_value t p e -> Bd t e.
Proof.
  intros (q & Q & A & H1 & H2 & H3 & [[H4 H5]|[-> _]]); [|apply Bd_len; auto].
  replace e with (e - 1 + 1) by lia. eapply Bd_after_ascii; eauto. destruct Q; subst; reflexivity.
Qed.

Lemma char_at_Bd i c : char_at t i c -> Bd t i.
Proof.
  intros (c1 & c2 & S & E & ->). rewrite forallb_app in S. apply andb_true_iff in S as [S1 S2].
  exists c1, (c :: c2). rewrite E, encode_app. auto.
Qed.
Lemma Bd_char_at i : Bd t i -> i < len -> exists c, char_at t i c.
Proof.
  intros (c1 & c2 & S1 & S2 & E & ->) L. destruct c2 as [|c c2].
  - rewrite E in L. simpl in L. rewrite app_nil_r in L. lia.
  - exists c, c1, c2. rewrite forallb_app, S1, S2, encode_app. auto.
Qed.
Lemma char_at_skipn i c : char_at t i c ->
  scalar c = true /\ exists r, forallb scalar r = true /\ skipn i t = encode (c :: r).
Proof.
  intros (c1 & c2 & S & E & ->). rewrite forallb_app in S. apply andb_true_iff in S as [S1 S2].
  cbn [forallb] in S2. apply andb_true_iff in S2 as [S2 S3]. split; auto. exists c2. split; auto.
  rewrite E, encode_app, skipn_app, Nat.sub_diag, skipn_all. auto.
Qed.

Lemma enter_tag_good sc sc1 : Good sc -> pos sc < len -> enter_tag t sc sc1 ->
  Bd t (pos sc1) \/ has_space sc1 = false.
Proof.
  intros HG L H. specialize (HG ltac:(lia)). inv H; simpl; auto.
  - destruct HG as [|[[_ ?]|?]]; auto; congruence.
  - destruct HG as [|[[? _]|?]]; auto; congruence.
  - destruct HG as [|[[? _]|?]]; auto; congruence.
Qed.
Lemma enter_tag_st sc sc1 : enter_tag t sc sc1 -> st sc1 = WithinTag.
Proof. intros H; inv H; auto. Qed.

Lemma good_step sc sc' : Good sc -> outcome sc sc' -> Good sc' \/ after_bad_char t sc'.
Proof.
  Local Ltac bd := left; intros _; left; cbn [pos finish].
  intros HG H. inv H.
  - left. intros L. apply HG. auto.
  - bd. apply (Bd_prefix t _ (bs "-->")); auto; discriminate.
  - bd. eapply bd_first_str; eauto; discriminate.
  - bd. eapply Bd_after_ascii; eauto; reflexivity.
  - bd. eapply bd_first_byte; eauto; reflexivity.
  - bd. apply (Bd_prefix t _ (bs "<!--")); auto; discriminate.
  - bd. apply m_doctype_some in H3 as (_ & _ & L & _ & M).
    apply nth_error_lt in H1.
    assert (exists b, nth_error t (pos sc + 8) = Some b /\ (b < 128)%N) as (b & B1 & B2).
    { rewrite skipn_length in L.
      pose proof (f_equal (fun l => nth_error l 6) M) as M'. cbv beta in M'.
      rewrite nth_error_map in M'. unfold sub in M'. rewrite (firstn_nth_error _ _ _) in M' by lia.
      rewrite !skipn_nth_error in M'. replace (pos sc + 1 + (1 + 6)) with (pos sc + 8) in M' by lia.
      destruct (nth_error t (pos sc + 8)) as [b|] eqn:B; [|discriminate].
      exists b. split; auto. simpl in M'. apply Some_inj in M'. unfold ascii_lower in M'.
      destruct (ascii_upper_letter b) eqn:Q; unfold ascii_upper_letter in Q; lia. }
    replace (pos sc + 9) with (pos sc + 8 + 1) by lia. eapply Bd_after_ascii; eauto.
  - bd. replace (pos sc + 2) with (pos sc + 1 + 1) by lia. eapply Bd_after_ascii; eauto; reflexivity.
  - bd. eapply Bd_after_ascii; eauto; reflexivity.
  - bd. eapply bd_first_byte; eauto; reflexivity.
  - bd. eapply bd_elem; eauto.
  - bd. eapply bd_ws; eauto.
  - bd. eapply bd_first_byte; eauto; reflexivity.
  - bd. eapply bd_ws; eauto.
  - bd. eapply Bd_after_ascii; eauto; reflexivity.
  - bd. eapply Bd_at_ascii; eauto; reflexivity.
  - left. intros _. right. right. auto.
  - bd. eapply bd_elem; eauto.
  - bd. eapply bd_ws; eauto.
  - bd. eapply bd_first_byte; eauto; reflexivity.
  - pose proof (enter_tag_good _ _ HG H0 H1) as G1. pose proof (enter_tag_st _ _ H1) as S1.
    pose proof (enter_tag_pos _ _ _ H1) as P1.
    inv H2.
    + bd. eapply bd_ws; eauto.
    + bd. eapply bd_attr; eauto.
    + bd. apply (Bd_prefix t _ (bs "/>")); auto; discriminate.
    + bd. eapply Bd_after_ascii; eauto; reflexivity.
    + bd. eapply Bd_at_ascii; eauto; reflexivity.
    + unfold no_attr. destruct (has_space sc1) eqn:Hs.
      2:{ left. intros _. right. left. auto. }
      destruct G1 as [G1|G1]; [|discriminate]. destruct (H6 eq_refl) as [_ R].
      destruct (Bd_char_at _ G1 ltac:(lia)) as (c & C).
      destruct (char_at_skipn _ _ C) as (Sc & r & Sr & E).
      rewrite E, encode_cons, char_run_encode1 in R by auto.
      destruct (attr_char c) eqn:A; [pose proof (encode1_nonempty _ Sc); lia|].
      destruct (N.lt_ge_cases c 128) as [Lc|Lc].
      * bd. apply Bd_after_ascii with (b := c); auto.
        rewrite <- (Nat.add_0_r (pos sc1)), <- skipn_nth_error, E, encode_cons.
        unfold encode1. replace (c <? 128)%N with true by lia. auto.
      * right. unfold after_bad_char.
        assert (NE : peek_is t (pos sc1) EQ = false).
        { apply peek_is_false. intros Q. rewrite <- (Nat.add_0_r (pos sc1)), <- skipn_nth_error, E, encode_cons in Q.
          pose proof (encode1_nonempty _ Sc). destruct (encode1 c) as [|x y] eqn:F; [simpl in *; lia|].
          simpl in Q. inv Q. destruct (encode1_ascii _ _ _ Sc F eq_refl). unfold EQ in *. lia. }
        rewrite NE. simpl. repeat split; auto. exists (pos sc1), c. repeat split; auto.
        unfold bad_char, attr_char, is_c1, is_uspace in *. lia.
  - bd. eapply bd_ws; eauto.
  - bd. eapply Bd_after_ascii; eauto; reflexivity.
  - bd. eapply bd_ws; eauto.
  - bd. eapply bd_plain; eauto.
  - bd. eapply bd_quoted; eauto.
  - destruct H3 as [->|[-> ->]].
    + left. intros _. right. right. auto.
    + bd. apply Bd_len; auto.
  - bd. eapply bd_first_str; eauto; discriminate.
Qed.

(** After a bad character the next call panics. *)
Lemma after_bad_panics sc : after_bad_char t sc -> scan sc = Panic PSlice.
Proof.
  intros (S & Hs & i & c & C & B & E).
  rewrite (scan_internal U t emit cs HU). unfold internal_scan. rewrite S.
  destruct (char_at_skipn _ _ C) as (Sc & r & Sr & El).
  pose proof (char_at_Bd _ _ C) as HB.
  assert (Hc : (128 <= c)%N) by (unfold bad_char in B; lia).
  pose proof (encode1_shape _ Sc) as Sh.
  assert (exists b, nth_error t (pos sc) = Some b /\ is_cont b = true) as (b & B1 & B2).
  { rewrite E. rewrite <- skipn_nth_error, El, encode_cons.
    assert (2 <= length (encode1 c)) by (inversion Sh; subst; simpl; lia).
    destruct (nth_error (encode1 c) 1) as [b|] eqn:Q; [|apply nth_error_None in Q; lia].
    exists b. rewrite nth_error_app1 by lia. split; auto. eapply encode1_rest; eauto. }
  pose proof (nth_error_lt _ _ _ B1) as L.
  unfold scan_within_tag, eos_or, eos. replace (len <=? pos sc) with false by lia.
  destruct (skip_ws t (pos sc)) as [p|] eqn:W.
  { apply skip_ws_some in W as (W1 & W2 & W3 & _). destruct (W3 (pos sc)) as (b' & Q1 & Q2); try lia.
    rewrite B1 in Q1. inv Q1. unfold is_cont, is_ws in *. lia. }
  rewrite Hs. unfold next_attribute_name, name_of, adv_if_regexp.
  assert (slice t (pos sc) len = Panic PSlice) as ->; [|reflexivity].
  unfold slice. assert (is_boundary t (pos sc) = false) as ->.
  { unfold is_boundary. rewrite B1, B2. replace (pos sc =? 0) with false by lia.
    replace (pos sc =? len) with false by lia. auto. }
  rewrite !andb_false_r. auto.
Qed.

Lemma scan_prefix_ne c0 : scalar c0 = true -> (128 <= c0)%N -> exists b, last (encode1 c0) 0%N = b /\ is_cont b = true /\ 2 <= length (encode1 c0).
Proof.
  intros S L. pose proof (encode1_shape _ S) as H. inversion H; subst; cbn [last length]; eexists; split; try reflexivity; split; try lia;
   unfold is_cont; lia.
Qed.

Lemma type_value_panics sc : type_value_at_end t sc -> scan sc = Panic PSlice.
Proof.
  intros (S & La & q & c & t' & Q & A & N & E & Sc & Hc).
  rewrite (scan_internal U t emit cs HU). unfold internal_scan. rewrite S.
  pose proof (nth_error_lt _ _ _ A) as L.
  unfold scan_before_attribute_value, eos_or, eos. replace (len <=? pos sc) with false by lia.
  destruct (skip_ws t (pos sc)) as [p|] eqn:W.
  { apply skip_ws_some in W as (W1 & W2 & W3 & _). destruct (W3 (pos sc)) as (b' & Q1 & Q2); try lia.
    rewrite A in Q1. inv Q1. destruct Q; subst; discriminate. }
  assert (HB : Bd t (pos sc)) by (eapply Bd_at_ascii; eauto; destruct Q; subst; reflexivity).
  unfold adv_if_regexp. rewrite bd_slice by auto. cbv zeta. cbn [bind].
  assert (m_value (skipn (pos sc) t) = None) as ->.
  { unfold m_value. rewrite (skipn_cons _ _ _ A). destruct Q; subst; reflexivity. }
  unfold scan_quoted, peek. rewrite A.
  assert (N.eqb q SQUOTE || N.eqb q DQUOTE = true) as ->.
  { destruct Q; subst; reflexivity. }
  destruct (adv_until_char t (pos sc + 1) q) as [found e] eqn:F.
  destruct (adv_until_char_spec t (pos sc + 1) q ltac:(lia)) as (_ & F5 & F6).
  rewrite F in F5, F6. cbn [fst snd] in *.
  destruct found.
  { exfalso. pose proof (F5 eq_refl) as F7. unfold adv_until_char in F.
    destruct (find_byte q (skipn (pos sc + 1) t)); inv F. apply (N (pos sc + 1 + n)); auto. lia. }
  rewrite (F6 eq_refl). rewrite La. change (opt_beq (Some (bs "type")) (bs "type")) with true. cbn iota.
  destruct (scan_prefix_ne c Sc Hc) as (b & Lb & Cb & L2).
  assert (Hl : nth_error t (len - 1) = Some b).
  { rewrite E at 1. rewrite E, app_length. rewrite nth_error_app2 by lia.
    replace (length t' + length (encode1 c) - 1 - length t') with (length (encode1 c) - 1) by lia.
    rewrite <- Lb. destruct (encode1 c) as [|x y] using rev_ind; [simpl in L2; lia|].
    rewrite last_last, app_length. simpl. rewrite nth_error_app2 by lia.
    replace (length y + 1 - 1 - length y) with 0 by lia. auto. }
  assert (pos sc <> len - 1).
  { intros X. rewrite X, Hl in A. inv A. unfold is_cont in Cb. destruct Q as [Q|Q]; rewrite Q in Cb; discriminate. }
  assert (len - 1 <? pos sc + 1 = false \/ pos sc + 1 = len - 1 \/ pos sc + 1 < len - 1) as C by lia.
  assert (len - 1 <? pos sc + 1 = false) as -> by lia.
  assert (slice t (pos sc + 1) (len - 1) = Panic PSlice) as ->; [|reflexivity].
  unfold slice. assert (is_boundary t (len - 1) = false) as ->.
  { unfold is_boundary. rewrite Hl, Cb. replace (len - 1 =? 0) with false by lia.
    replace (len - 1 =? len) with false by lia. auto. }
  rewrite !andb_false_r. auto.
Qed.

(** ** Reachable states *)
Inductive reach (sc0 : scanner) : scanner -> Prop :=
| reach_start : reach sc0 sc0
| reach_step sc sc' : reach sc0 sc -> scan sc = Ok sc' -> reach sc0 sc'.

Lemma reach_good sc0 sc : Good sc0 -> reach sc0 sc -> Good sc \/ after_bad_char t sc.
Proof.
  intros H0 H. induction H as [|sc sc' H IH S]; auto.
  destruct IH as [IH|IH].
  - eapply good_step; eauto. apply scan_outcome; auto.
  - rewrite after_bad_panics in S by auto. discriminate.
Qed.

Lemma panic_causes sc0 sc r : Bd t (pos sc0) -> reach sc0 sc -> scan sc = Panic r ->
  r = PSlice /\ (after_bad_char t sc \/ type_value_at_end t sc).
Proof.
  intros H0 H S. apply reach_good in H; [|intros _; auto].
  destruct H as [H|H].
  - apply scan_safe in H as [[sc' H]|[H1 H2]]; [congruence|]. rewrite S in H1. inv H1. auto.
  - split; auto. rewrite after_bad_panics in S by auto. congruence.
Qed.

(** A text without bad characters that does not end in a non-ASCII character is
    scanned without panic. *)
Lemma char_at_in i c : char_at t i c -> In c (decode t).
Proof.
  intros (c1 & c2 & S & -> & _). rewrite decode_encode by auto. apply in_app_iff. simpl. auto.
Qed.

Lemma clean_not_bad sc : (forall c, In c (decode t) -> bad_char c = false) -> ~ after_bad_char t sc.
Proof.
  intros H (_ & _ & i & c & C & B & _). rewrite H in B; [discriminate|]. eapply char_at_in; eauto.
Qed.

Lemma tokens_safe sc fuel : Good sc ->
  (forall c, In c (decode t) -> bad_char c = false) ->
  (forall t' c, t = t' ++ encode1 c -> scalar c = true -> (c < 128)%N) ->
  measure t sc < fuel ->
  exists l f, tokens U t emit cs fuel sc = Ok (l, f).
Proof.
  intros HG H1 H2. revert sc HG. induction fuel as [|fuel IH]; intros sc HG M; [lia|].
  cbn [tokens]. destruct (scan_safe sc HG) as [[sc' S]|[_ (_ & _ & q & c & t' & _ & _ & _ & E & Sc & L)]].
  2:{ specialize (H2 _ _ E Sc). lia. }
  rewrite S. cbn [bind]. destruct (token_eqb (tok sc') EOS) eqn:T; [eauto|].
  apply token_eqb_neq in T. pose proof (scan_measure U t emit cs HU _ _ S T) as M'.
  destruct (good_step sc sc' HG) as [G|G].
  - apply scan_outcome; auto.
  - destruct (IH sc' G ltac:(lia)) as (l & f & ->). cbn [bind]. eauto.
  - exfalso. eapply clean_not_bad; eauto.
Qed.
End P.
