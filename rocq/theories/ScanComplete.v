(** * The converse of ScanStep: every [outcome] is what the scanner does.

    Together with [scan_outcome] this makes [outcome] an exact description of
    one step of the scanner, usable to run it symbolically. *)
From Verif Require Import Base Stream Scanner BaseFacts ScannerFacts ScanStep.
From Coq Require Import ZifyBool ZifyNat ZifyN.

(** Bytes at the current position decide what is not there. *)
Lemma skip_ws_not t p b : nth_error t p = Some b -> is_ws b = false -> skip_ws t p = None.
Proof.
  intros H1 H2. destruct (skip_ws t p) as [e|] eqn:E; auto.
  apply skip_ws_some in E as (A & B & C & _). destruct (C p) as (x & X1 & X2); [lia|lia|]. congruence.
Qed.

Lemma adv_if_char_eq t p b : nth_error t p = Some b -> adv_if_char t p b = Some (p + 1).
Proof.
  intros H. destruct (adv_if_char t p b) as [q|] eqn:E.
  - apply adv_if_char_some in E as [_ ->]. auto.
  - apply adv_if_char_none in E. tauto.
Qed.
Lemma adv_if_char_ne t p b : nth_error t p <> Some b -> adv_if_char t p b = None.
Proof. apply adv_if_char_none. Qed.
Lemma adv_if_chars_eq t p x : is_prefix x (skipn p t) = true -> adv_if_chars t p x = Some (p + length x).
Proof.
  intros H. destruct (adv_if_chars t p x) as [q|] eqn:E.
  - apply adv_if_chars_some in E as [_ ->]. auto.
  - apply adv_if_chars_none in E. congruence.
Qed.
Lemma adv_if_chars_ne t p x : is_prefix x (skipn p t) = false -> adv_if_chars t p x = None.
Proof. apply adv_if_chars_none. Qed.

Lemma first_byte_det t p b q q' : first_byte t p b q -> first_byte t p b q' -> q = q'.
Proof.
  intros (A1 & A2 & A3 & A4) (B1 & B2 & B3 & B4).
  destruct (Nat.lt_trichotomy q q') as [L|[L|L]]; auto; exfalso.
  - destruct A4; [lia|]. apply (B3 q); auto.
  - destruct B4; [lia|]. apply (A3 q'); auto.
Qed.
Lemma first_str_det t p x q q' : first_str t p x q -> first_str t p x q' -> q = q'.
Proof.
  intros (A1 & A2 & A3 & A4) (B1 & B2 & B3 & B4).
  destruct (Nat.lt_trichotomy q q') as [L|[L|L]]; auto; exfalso.
  - destruct A4 as [A4|[? A4]]; [|lia]. rewrite B3 in A4 by lia. discriminate.
  - destruct B4 as [B4|[? B4]]; [|lia]. rewrite A3 in B4 by lia. discriminate.
Qed.

Section S.
Variable U : unicode.
Variable t : str.
Variable emit cs : bool.
Hypothesis HU : Utf8 t.
Notation outcome := (outcome U t emit cs).
Notation tag_outcome := (tag_outcome U t emit cs).
Notation norm := (norm U cs).

Lemma eos_or_go sc k : pos sc < length t -> eos_or t sc k = k (pos sc).
Proof. intros H. unfold eos_or. replace (eos t (pos sc)) with false; auto. symmetry. apply eos_false; auto. Qed.
Lemma eos_or_end sc k : length t <= pos sc ->
  eos_or t sc k = Ok (finish sc (pos sc) EOS None (pos sc) (st sc)).
Proof. intros H. unfold eos_or, eos. replace (length t <=? pos sc) with true by lia. auto. Qed.

Lemma elem_go p e : elem_name U t p e -> next_element_name U t cs p = Ok (Some (norm (sub t p e), e)).
Proof.
  intros (H1 & H2 & H3 & H4). unfold next_element_name, name_of, adv_if_regexp.
  rewrite slice_rest_ok by (auto; lia). cbn [bind]. rewrite H4. cbn [bind].
  rewrite Nat.add_0_r. replace (p + (e - p)) with e by lia. reflexivity.
Qed.
Lemma elem_no p : p <= length t -> is_boundary t p = true -> m_element_name U (skipn p t) = None ->
  next_element_name U t cs p = Ok None.
Proof.
  intros H1 H2 H3. unfold next_element_name, name_of, adv_if_regexp.
  rewrite slice_rest_ok by auto. cbn [bind]. rewrite H3. auto.
Qed.
Lemma attr_go p e : attr_name t p e -> next_attribute_name U t cs p = Ok (Some (norm (sub t p e), e)).
Proof.
  intros (H1 & H2 & H3 & H4). unfold next_attribute_name, name_of, adv_if_regexp.
  rewrite slice_rest_ok by (auto; lia). cbn [bind]. unfold m_attr_name. rewrite H4.
  destruct (e - p) as [|n] eqn:E; [lia|]. cbn [bind].
  rewrite Nat.add_0_r. replace (p + Datatypes.S n) with e by lia. reflexivity.
Qed.
Lemma attr_no p : p <= length t -> is_boundary t p = true -> char_run attr_char (skipn p t) = 0 ->
  next_attribute_name U t cs p = Ok None.
Proof.
  intros H1 H2 H3. unfold next_attribute_name, name_of, adv_if_regexp.
  rewrite slice_rest_ok by auto. cbn [bind]. unfold m_attr_name. rewrite H3. auto.
Qed.

Lemma char_run_at_ascii f p b : nth_error t p = Some b -> (b < 128)%N -> f b = false ->
  char_run f (skipn p t) = 0.
Proof.
  intros H1 H2 H3. rewrite (skipn_cons _ _ _ H1).
  cbn [char_run]. replace (b <? 128)%N with true by lia. rewrite H3. auto.
Qed.

Lemma elem_at_ascii p b : nth_error t p = Some b -> (b < 128)%N -> name_start_char U b = false ->
  m_element_name U (skipn p t) = None.
Proof.
  intros H1 H2 H3. unfold m_element_name. rewrite (skipn_cons _ _ _ H1).
  assert (D : decode1 (b :: skipn (p + 1) t) = Some (b, 1)).
  { unfold decode1. replace (b <? 128)%N with true by lia. auto. }
  rewrite D, H3. auto.
Qed.

Lemma ws_ascii b : is_ws b = true -> (b < 128)%N.
Proof. unfold is_ws. lia. Qed.

Lemma prefix_first x r p : is_prefix (x :: r) (skipn p t) = true -> nth_error t p = Some x.
Proof.
  intros H. destruct (skipn p t) as [|y l] eqn:E; [discriminate|]. cbn [is_prefix] in H.
  apply andb_true_iff in H as [H _]. apply N.eqb_eq in H. subst y.
  rewrite <- (Nat.add_0_r p), <- skipn_nth_error, E. auto.
Qed.

Lemma no_attr_fields sc : last_tag (no_attr t sc) = last_tag sc /\
  last_type (no_attr t sc) = last_type sc /\ st (no_attr t sc) = st sc.
Proof. unfold no_attr. destruct (has_space sc), (peek_is t (pos sc) EQ); auto. Qed.

Lemma within_tag_go sc sc' : tag_outcome sc sc' -> pos sc < length t ->
  scan_within_tag U t emit cs sc = Ok sc'.
Proof.
  intros H Hp. unfold scan_within_tag. rewrite eos_or_go by auto.
  destruct (no_attr_fields sc) as (E1 & E2 & E3).
  assert (R : skip_ws t (pos sc) = None ->
     (has_space sc = true -> is_boundary t (pos sc) = true /\ char_run attr_char (skipn (pos sc) t) = 0) ->
     scan_within_tag_rest t emit (no_attr t sc) (pos sc) = Ok sc' ->
     match skip_ws t (pos sc) with
     | Some p => Ok (finish (set_space true sc) (pos sc) Whitespace None p (st sc))
     | None =>
         if has_space sc then
           do r <- next_attribute_name U t cs (pos sc);
           match r with
           | Some (name, p) =>
               Ok (finish (set_space false (set_last_attr (Some name) sc))
                          (pos sc) AttributeName None p AfterAttributeName)
           | None =>
               let sc0 := set_last_attr None sc in
               let sc1 := if peek_is t (pos sc) EQ then set_space false sc0 else sc0 in
               scan_within_tag_rest t emit sc1 (pos sc)
           end
         else scan_within_tag_rest t emit sc (pos sc)
     end = Ok sc').
  { intros W A G. rewrite W. unfold no_attr in G. destruct (has_space sc).
    - destruct A as [A1 A2]; auto. rewrite attr_no by (auto; lia). cbn [bind]. exact G.
    - exact G. }
  inversion H as [e H0 HE|e H0 H1 H2 HE|H0 HE|H0 HE|H0 H1 HE|H0 H1 H2 H3 H4 HE]; subst sc'.
  - rewrite H0. auto.
  - rewrite H1, H0, (attr_go _ _ H2). auto.
  - pose proof (prefix_first _ _ _ H0) as F. apply R.
    + eapply skip_ws_not; eauto.
    + intros _. split; [eapply boundary_byte; eauto; reflexivity|].
      eapply char_run_at_ascii; eauto; reflexivity.
    + unfold scan_within_tag_rest. rewrite (adv_if_chars_eq _ _ _ H0). auto.
  - apply R.
    + eapply skip_ws_not; eauto.
    + intros _. split; [eapply boundary_byte; eauto; reflexivity|].
      eapply char_run_at_ascii; eauto; reflexivity.
    + unfold scan_within_tag_rest. rewrite adv_if_chars_ne.
      2:{ destruct (is_prefix _ _) eqn:P; auto. apply prefix_first in P. rewrite H0 in P. discriminate. }
      rewrite (adv_if_char_eq _ _ _ H0), E1, E2. auto.
  - apply R.
    + eapply skip_ws_not; eauto.
    + intros _. split; [eapply boundary_byte; eauto; reflexivity|].
      eapply char_run_at_ascii; eauto; reflexivity.
    + unfold scan_within_tag_rest. rewrite adv_if_chars_ne.
      2:{ destruct (is_prefix _ _) eqn:P; auto. apply prefix_first in P. rewrite H1 in P. discriminate. }
      rewrite adv_if_char_ne by (rewrite H1; discriminate).
      rewrite H0, (proj2 (peek_is_true t _ _) H1). auto.
  - apply R; auto. unfold scan_within_tag_rest.
    rewrite adv_if_chars_ne, adv_if_char_ne by auto.
    replace (emit && peek_is t (pos sc) LT) with false.
    2:{ symmetry. destruct emit; auto. cbn [andb]. apply peek_is_false. auto. }
    rewrite E3. auto.
Qed.

Lemma first_byte_adv p b e : p <= length t -> first_byte t p b e -> snd (adv_until_char t p b) = e.
Proof.
  intros H F. destruct (adv_until_char_spec t p b H) as (G & _). eapply first_byte_det; eauto.
Qed.

Lemma content_go sc sc0 sc' :
  (sc' = finish sc (pos sc) StartCommentTag None (pos sc + 4) WithinComment /\
     is_prefix (bs "<!--") (skipn (pos sc) t) = true) \/
  (sc' = finish sc (pos sc) StartDoctypeTag None (pos sc + 9) WithinDoctype /\
     nth_error t (pos sc) = Some LT /\ m_doctype (skipn (pos sc + 1) t) = Some (0, 8)) \/
  (sc' = finish sc (pos sc) EndTagOpen None (pos sc + 2) AfterOpeningEndTag /\
     nth_error t (pos sc) = Some LT /\ nth_error t (pos sc + 1) = Some SLASH) \/
  (sc' = finish sc (pos sc) StartTagOpen None (pos sc + 1) AfterOpeningStartTag /\
     nth_error t (pos sc) = Some LT /\ is_prefix (bs "<!--") (skipn (pos sc) t) = false /\
     nth_error t (pos sc + 1) <> Some SLASH /\ m_doctype (skipn (pos sc + 1) t) = None) ->
  sc0 = sc \/ sc0 = set_st WithinContent sc ->
  scan_content t sc0 = Ok sc'.
Proof.
  intros H Hsc.
  assert (LTp : nth_error t (pos sc) = Some LT).
  { destruct H as [[_ H]|[H|[H|H]]]; try tauto. apply prefix_first in H. exact H. }
  assert (Hp : pos sc < length t) by (eapply nth_error_lt; eauto).
  assert (Hpos : pos sc0 = pos sc) by (destruct Hsc as [-> | ->]; auto).
  assert (Hfin : forall o tk er p s, finish sc0 o tk er p s = finish sc o tk er p s)
    by (destruct Hsc as [-> | ->]; auto).
  assert (Pl : forall x, is_prefix (60%N :: x) (skipn (pos sc) t) = is_prefix x (skipn (pos sc + 1) t)).
  { intros x. rewrite (skipn_cons _ _ _ LTp). reflexivity. }
  assert (Bp : is_boundary t (pos sc + 1) = true).
  { apply Bd_boundary. eapply Bd_after_ascii; eauto. reflexivity. }
  unfold scan_content. rewrite eos_or_go by lia. rewrite !Hpos, !Hfin.
  rewrite (adv_if_char_eq _ _ _ LTp).
  assert (Hno : nth_error t (pos sc + 1) <> Some BANG ->
     negb (eos t (pos sc + 1)) && peek_is t (pos sc + 1) BANG = false).
  { intros Q. rewrite (proj2 (peek_is_false t _ _) Q), andb_false_r. auto. }
  assert (Hyes : nth_error t (pos sc + 1) = Some BANG ->
     negb (eos t (pos sc + 1)) && peek_is t (pos sc + 1) BANG = true).
  { intros Q. rewrite (proj2 (peek_is_true t _ _) Q), andb_true_r.
    rewrite (proj2 (eos_false t _) (nth_error_lt _ _ _ Q)). auto. }
  destruct H as [[-> H]|[(-> & _ & H)|[(-> & _ & H)|(-> & _ & H1 & H2 & H3)]]].
  - change (bs "<!--") with (60%N :: bs "!--") in H. rewrite Pl in H.
    rewrite Hyes by (eapply prefix_first; exact H).
    rewrite (adv_if_chars_eq _ _ _ H), Hfin. do 2 f_equal. change (length (bs "!--")) with 3. lia.
  - assert (Q : nth_error t (pos sc + 1) = Some BANG).
    { unfold m_doctype in H. destruct (skipn (pos sc + 1) t) as [|x r] eqn:E; [discriminate|].
      destruct (N.eqb_spec x 33) as [->|]; [|discriminate].
      rewrite <- (Nat.add_0_r (pos sc + 1)), <- skipn_nth_error, E. auto. }
    rewrite Hyes by auto. rewrite adv_if_chars_ne.
    + unfold adv_if_regexp. rewrite slice_rest_ok by (auto; apply nth_error_lt in Q; lia).
      cbn [bind]. rewrite H. cbn [bind]. rewrite Hfin. do 2 f_equal. lia.
    + destruct (is_prefix (bs "!--") (skipn (pos sc + 1) t)) eqn:P; auto.
      apply is_prefix_spec in P as (r & P). rewrite P in H. discriminate.
  - rewrite Hno by (rewrite H; discriminate). rewrite (adv_if_char_eq _ _ _ H), Hfin. do 2 f_equal. lia.
  - change (bs "<!--") with (60%N :: bs "!--") in H1. rewrite Pl in H1.
    rewrite (adv_if_chars_ne _ _ _ H1), (adv_if_char_ne _ _ _ H2), Hfin.
    destruct (negb (eos t (pos sc + 1)) && peek_is t (pos sc + 1) BANG); auto.
    unfold adv_if_regexp. rewrite slice_rest_ok by (auto; lia). cbn [bind]. rewrite H3. auto.
Qed.

Lemma content_like_go sc sc' :
  content_like t sc -> Bd t (pos sc) -> pos sc < length t ->
  (forall sc0, sc0 = sc \/ sc0 = set_st WithinContent sc -> scan_content t sc0 = Ok sc') ->
  internal_scan U t emit cs sc = Ok sc'.
Proof.
  intros H HB Hp K. unfold internal_scan. destruct H as [H|[[H R]|[H R]]]; rewrite H.
  - apply K. auto.
  - unfold scan_script. rewrite eos_or_go by auto.
    destruct (script_loop_spec t HU (length t) 1 (pos sc) HB ltac:(lia)) as (fin & q & S1 & S2 & S3).
    rewrite S1. cbn [bind]. assert (q = pos sc) by (eapply script_run_det; eauto). subst q.
    destruct fin; [specialize (S3 eq_refl); lia|].
    replace (pos sc <? pos sc) with false by lia. apply K. auto.
  - unfold scan_style. rewrite eos_or_go by auto. unfold adv_until_regexp.
    rewrite slice_rest_ok by (auto using Bd_boundary; lia). cbn [bind].
    assert (F : find_str (bs "</style") (skipn (pos sc) t) = Some 0).
    { destruct (find_str_first t (pos sc) (bs "</style")) as (F1 & F2 & F3 & F4); [lia|discriminate|].
      destruct (find_str _ _) as [n|].
      - destruct n; auto. specialize (F3 (pos sc) ltac:(lia) ltac:(lia)). congruence.
      - specialize (F3 (pos sc) ltac:(lia) ltac:(lia)). congruence. }
    unfold m_style. rewrite F. cbn [bind]. rewrite Nat.add_0_r.
    replace (pos sc <? pos sc) with false by lia. apply K. auto.
Qed.

(** The states in which the position may be inside a character. *)
Definition in_tag_state (s : sstate) : Prop :=
  s = WithinTag \/ s = AfterAttributeName \/ s = BeforeAttributeValue \/ s = WithinEndTag.

Lemma quoted_go sc e :
  st sc = BeforeAttributeValue -> quoted_value t (pos sc) e ->
  (opt_beq (last_attr sc) (bs "type") = true ->
   is_boundary t (pos sc + 1) = true /\ is_boundary t (e - 1) = true) ->
  scan_before_attribute_value U t emit cs sc =
  Ok (finish (set_space false (set_last_type (new_type sc
                          (if e - 1 <? pos sc + 1 then sub t (e - 1) (pos sc + 1)
                           else sub t (pos sc + 1) (e - 1))) sc))
                       (pos sc) AttributeValue None e WithinTag).
Proof.
  intros Hst (q & Hq & Hat & H1 & H2 & H3 & H4) Hbd.
  assert (Hb : (q < 128)%N) by (destruct Hq as [-> | ->]; reflexivity).
  assert (Hv : val_char q = false) by (destruct Hq as [-> | ->]; reflexivity).
  unfold scan_before_attribute_value. rewrite eos_or_go by lia.
  rewrite (skip_ws_not t (pos sc) q) by (auto; destruct Hq as [-> | ->]; reflexivity).
  unfold adv_if_regexp. rewrite slice_rest_ok by (try lia; eapply boundary_byte; eauto).
  cbn [bind]. unfold m_value. rewrite (char_run_at_ascii val_char (pos sc) q) by auto. cbn [bind].
  unfold scan_quoted, peek. rewrite Hat.
  replace ((q =? SQUOTE) || (q =? DQUOTE))%N with true by (destruct Hq as [-> | ->]; reflexivity).
  destruct (adv_until_char_spec t (pos sc + 1) q ltac:(lia)) as (F & F5 & F6).
  destruct (adv_until_char t (pos sc + 1) q) as [found x]. cbn [fst snd] in *.
  assert (X : (if found then x + 1 else x) = e).
  { destruct H4 as [[A B]|[A B]].
    - assert (first_byte t (pos sc + 1) q (e - 1)) by (repeat split; auto; lia).
      assert (x = e - 1) by (eapply first_byte_det; eauto). subst x.
      destruct found; [lia|]. specialize (F6 eq_refl). apply nth_error_lt in A. lia.
    - assert (first_byte t (pos sc + 1) q (length t)).
      { repeat split; auto; try lia. intros i I1 I2.
        destruct (Nat.eq_dec i (e - 1)) as [->|]; [|apply H3; lia]. destruct B; auto. lia. }
      assert (x = length t) by (eapply first_byte_det; eauto). subst x.
      destruct found; auto. specialize (F5 eq_refl). apply nth_error_lt in F5. lia. }
  rewrite X. unfold new_type. destruct (opt_beq (last_attr sc) (bs "type")).
  - destruct Hbd as [B1 B2]; auto. destruct (e - 1 <? pos sc + 1) eqn:C.
    + assert (S : slice t (e - 1) (pos sc + 1) = Ok (sub t (e - 1) (pos sc + 1)))
        by (apply slice_ok; repeat split; auto; lia).
      rewrite S. reflexivity.
    + assert (S : slice t (pos sc + 1) (e - 1) = Ok (sub t (pos sc + 1) (e - 1)))
        by (apply slice_ok; repeat split; auto; lia).
      rewrite S. reflexivity.
  - cbn [bind]. destruct sc; reflexivity.
Qed.

Lemma plain_go sc e :
  st sc = BeforeAttributeValue -> skip_ws t (pos sc) = None -> plain_value t (pos sc) e ->
  scan_before_attribute_value U t emit cs sc =
  Ok (finish (set_space false (set_last_type (new_type sc (sub t (pos sc) e)) sc))
                       (pos sc) AttributeValue None e WithinTag).
Proof.
  intros Hst Hw (H1 & H2 & H3 & n & Hn & Hr & He).
  assert (BD : Bd t (pos sc + n)).
  { rewrite <- Hr. apply Bd_char_run. apply boundary_Bd; auto. lia. }
  unfold scan_before_attribute_value. rewrite eos_or_go by lia. rewrite Hw.
  unfold adv_if_regexp. rewrite slice_rest_ok by (auto; lia). cbn [bind]. unfold m_value.
  rewrite Hr. destruct n as [|n']; [lia|]. set (n := Datatypes.S n') in *. cbn [bind].
  assert (GB : (match peek t (pos sc) with
                | Some c => match peek_back t (pos sc) with
                            | Some d => N.eqb c GT && N.eqb d SLASH
                            | None => false end
                | None => false end) = false).
  { unfold peek. destruct (nth_error t (pos sc)) as [c|] eqn:C; auto.
    destruct (peek_back t (pos sc)); auto. destruct (N.eqb_spec c GT) as [->|]; auto.
    exfalso. rewrite (char_run_at_ascii val_char (pos sc) GT) in Hr; auto; [lia|reflexivity]. }
  rewrite GB. cbn iota. rewrite !Nat.add_0_r. replace (pos sc + n - pos sc) with n by lia.
  assert (Hlast : forall v,
     (if opt_beq (last_attr sc) (bs "type") then set_last_type (nonempty v) sc else sc)
     = set_last_type (new_type sc v) sc).
  { intros v. unfold new_type. destruct (opt_beq _ _); auto. destruct sc; auto. }
  destruct He as [[-> He]|(-> & He1 & He2)].
  - assert (A : match adv_if_char t (pos sc + n) SQUOTE with
                | Some p => Some p
                | None => adv_if_char t (pos sc + n) DQUOTE
                end = Some (pos sc + n + 1)).
    { destruct (adv_if_char t (pos sc + n) SQUOTE) as [x|] eqn:E.
      - apply adv_if_char_some in E as [_ ->]. auto.
      - apply adv_if_char_none in E. destruct He; [tauto|]. apply adv_if_char_eq. auto. }
    rewrite A. replace (pos sc + n + 1 - n - 1) with (pos sc) by lia.
    assert (S : slice t (pos sc) (pos sc + n + 1) = Ok (sub t (pos sc) (pos sc + n + 1))).
    { apply slice_ok. repeat split; auto; try lia. apply Bd_boundary.
      destruct He as [He|He]; eapply Bd_after_ascii; eauto; reflexivity. }
    rewrite S. cbn [bind]. rewrite sub_length by lia.
    replace (0 <? pos sc + n + 1 - pos sc) with true by lia. rewrite Hlast. auto.
  - rewrite !adv_if_char_ne by auto. cbn [bind]. rewrite sub_length by lia.
    replace (0 <? pos sc + n - pos sc) with true by lia. rewrite Hlast. auto.
Qed.

Lemma ws_boundary p e : skip_ws t p = Some e ->
  p < length t /\ is_boundary t p = true /\ exists b, nth_error t p = Some b /\ is_ws b = true.
Proof.
  intros H. apply skip_ws_some in H as (A & B & C & _). destruct (C p) as (b & B1 & B2); [lia|lia|].
  repeat split; [lia| |eauto]. eapply boundary_byte; eauto. apply ws_ascii; auto.
Qed.

Lemma ws_no_elem p b : nth_error t p = Some b -> is_ws b = true -> m_element_name U (skipn p t) = None.
Proof.
  intros H1 H2. eapply elem_at_ascii; eauto using ws_ascii.
  unfold is_ws in H2. unfold name_start_char, is_word.
  assert (b < 128)%N by lia. replace (b <? 128)%N with true by lia. unfold ascii_alnum, ascii_alpha, ascii_digit, ascii_upper_letter, ascii_lower_letter. lia.
Qed.

Theorem outcome_scan sc sc' :
  outcome sc sc' -> Bd t (pos sc) \/ in_tag_state (st sc) -> tok sc' <> Script ->
  scan U t emit cs sc = Ok sc'.
Proof.
  intros H HB Hns. rewrite scan_internal by auto.
  assert (CL : forall sc0, content_like t sc0 -> Bd t (pos sc0) \/ in_tag_state (st sc0) -> Bd t (pos sc0)).
  { intros sc0 C [B|[B|[B|[B|B]]]]; auto; destruct C as [C|[[C _]|[C _]]]; congruence. }
  inversion H; subst sc'.
  - (* EOS *) unfold internal_scan. destruct (st sc) eqn:E; cbn iota;
      unfold scan_content, scan_after_opening_start_tag, scan_after_opening_end_tag, scan_doctype,
        scan_within_tag, scan_within_end_tag, scan_comment, scan_script, scan_style,
        scan_after_attribute_name, scan_before_attribute_value;
      rewrite eos_or_end by auto; rewrite E; auto.
  - unfold internal_scan. rewrite H0. unfold scan_comment.
    rewrite eos_or_go by (apply nth_error_lt with (x := 45%N); eapply prefix_first; eassumption).
    rewrite adv_if_chars_eq by auto. auto.
  - unfold internal_scan. rewrite H1. unfold scan_comment. rewrite eos_or_go by auto.
    rewrite adv_if_chars_ne by auto.
    replace (adv_until_chars t (pos sc) (bs "-->")) with e; [rewrite H1; auto|].
    eapply first_str_det; eauto. apply adv_until_chars_spec; [lia|discriminate].
  - unfold internal_scan. rewrite H0. unfold scan_doctype.
    rewrite eos_or_go by (eapply nth_error_lt; eauto). rewrite adv_if_char_eq by auto. auto.
  - unfold internal_scan. rewrite H1. unfold scan_doctype. rewrite eos_or_go by auto.
    rewrite adv_if_char_ne by auto. rewrite (first_byte_adv (pos sc) GT e) by (auto; lia).
    rewrite H1; auto.
  - apply content_like_go; auto.
    { eapply nth_error_lt. eapply prefix_first. exact H1. }
    intros sc0 S. apply content_go with (sc := sc); auto.
  - apply content_like_go; auto.
    { eapply nth_error_lt. eauto. }
    intros sc0 S. apply content_go with (sc := sc); auto; right; left; auto.
  - apply content_like_go; auto.
    { eapply nth_error_lt. eauto. }
    intros sc0 S. apply content_go with (sc := sc); auto; right; right; left; auto.
  - apply content_like_go; auto.
    { eapply nth_error_lt. eauto. }
    intros sc0 S. apply content_go with (sc := sc); auto; right; right; right; repeat split; auto.
  - unfold internal_scan. rewrite H0. unfold scan_content. rewrite eos_or_go by auto.
    rewrite adv_if_char_ne by auto. rewrite (first_byte_adv (pos sc) LT e) by (auto; lia).
    rewrite H0. auto.
  - unfold internal_scan. rewrite H0. unfold scan_after_opening_end_tag.
    rewrite eos_or_go by (destruct H1; lia). rewrite (elem_go _ _ H1). auto.
  - unfold internal_scan. rewrite H0. unfold scan_after_opening_end_tag.
    destruct (ws_boundary _ _ H1) as (L & B & b & Hb & W).
    rewrite eos_or_go by auto. rewrite elem_no by (auto; try lia; eapply ws_no_elem; eauto).
    cbn [bind]. rewrite H1, H0. auto.
  - unfold internal_scan. rewrite H0. unfold scan_after_opening_end_tag.
    destruct H1 as (F1 & F2 & F3 & F4).
    assert (B : Bd t (pos sc)). { destruct HB as [HB|[HB|[HB|[HB|HB]]]]; auto; congruence. }
    rewrite eos_or_go by lia. rewrite elem_no by (auto using Bd_boundary; lia).
    cbn [bind]. rewrite H3. rewrite (first_byte_adv (pos sc) GT e) by (try lia; repeat split; auto).
    cbv zeta. replace (pos sc <? e) with true by lia. auto.
  - unfold internal_scan. rewrite H0. unfold scan_within_end_tag.
    destruct (ws_boundary _ _ H1) as (L & B & b & Hb & W).
    rewrite eos_or_go by auto. rewrite H1, H0. auto.
  - assert (L : pos sc < length t) by (eapply nth_error_lt; eauto).
    assert (G : forall sc0, sc0 = sc \/ sc0 = set_st WithinEndTag sc ->
       scan_within_end_tag t emit sc0 = Ok (finish sc (pos sc) EndTagClose None (pos sc + 1) WithinContent)).
    { intros sc0 Hsc. assert (P : pos sc0 = pos sc) by (destruct Hsc as [-> | ->]; auto).
      unfold scan_within_end_tag. rewrite eos_or_go by lia. rewrite P.
      rewrite (skip_ws_not _ _ _ H1) by reflexivity. rewrite adv_if_char_eq by auto.
      destruct Hsc as [-> | ->]; auto. }
    unfold internal_scan. destruct H0 as [H0|H0]; rewrite H0.
    + apply G; auto.
    + unfold scan_after_opening_end_tag. rewrite eos_or_go by auto.
      rewrite elem_no; [|lia|eapply boundary_byte; eauto; reflexivity|
                        eapply elem_at_ascii; eauto; reflexivity].
      cbn [bind]. rewrite (skip_ws_not _ _ _ H1) by reflexivity. cbv zeta.
      rewrite (first_byte_adv (pos sc) GT (pos sc)); [|lia|repeat split; auto; lia].
      replace (pos sc <? pos sc) with false by lia. apply G; auto.
  - assert (L : pos sc < length t) by (eapply nth_error_lt; eauto).
    unfold internal_scan. rewrite H0. unfold scan_within_end_tag. rewrite eos_or_go by auto.
    rewrite (skip_ws_not _ _ _ H2) by reflexivity.
    rewrite adv_if_char_ne by (rewrite H2; discriminate).
    rewrite (proj2 (peek_is_true t _ _) H2). replace (emit && true) with true by (symmetry; rewrite andb_true_r; auto). auto.
  - unfold internal_scan. rewrite H1. unfold scan_within_end_tag. rewrite eos_or_go by auto.
    rewrite H3, adv_if_char_ne by auto.
    replace (emit && peek_is t (pos sc) LT) with false; auto.
    destruct (Bool.bool_dec emit true) as [E|E].
    + rewrite (proj2 (peek_is_false t _ _) (H4 E)), andb_false_r. auto.
    + destruct emit; tauto.
  - unfold internal_scan. rewrite H0. unfold scan_after_opening_start_tag.
    rewrite eos_or_go by (destruct H1; lia). rewrite (elem_go _ _ H1). auto.
  - unfold internal_scan. rewrite H0. unfold scan_after_opening_start_tag.
    destruct (ws_boundary _ _ H1) as (L & B & b & Hb & W).
    rewrite eos_or_go by auto. rewrite elem_no by (auto; try lia; eapply ws_no_elem; eauto).
    cbn [bind option_map]. rewrite H1. cbn [st set_last_attr set_last_type set_last_tag]. rewrite H0. auto.
  - unfold internal_scan. rewrite H0. unfold scan_after_opening_start_tag.
    destruct H1 as (F1 & F2 & F3 & F4).
    assert (B : Bd t (pos sc)). { destruct HB as [HB|[HB|[HB|[HB|HB]]]]; auto; congruence. }
    rewrite eos_or_go by lia. rewrite elem_no by (auto using Bd_boundary; lia).
    cbn [bind option_map]. rewrite H3. rewrite (first_byte_adv (pos sc) GT e) by (try lia; repeat split; auto).
    cbv zeta. replace (pos sc <? e) with true by lia. auto.
  - (* in tag *)
    inversion H1; subst; unfold internal_scan.
    + rewrite H3. apply within_tag_go; auto.
    + rewrite H3. unfold scan_after_opening_start_tag. rewrite eos_or_go by auto.
      rewrite elem_no; [|lia|eapply boundary_byte; eauto; reflexivity|
                        eapply elem_at_ascii; eauto; reflexivity].
      cbn [bind option_map]. rewrite (skip_ws_not _ _ _ H4) by reflexivity. cbv zeta.
      rewrite (first_byte_adv (pos sc) GT (pos sc)); [|lia|repeat split; auto; lia].
      replace (pos sc <? pos sc) with false by lia. apply within_tag_go; auto.
    + rewrite H3. unfold scan_after_attribute_name. rewrite eos_or_go by auto.
      rewrite H4, adv_if_char_ne by auto. apply within_tag_go; auto.
    + rewrite H3. unfold scan_before_attribute_value. rewrite eos_or_go by auto. rewrite H4.
      unfold adv_if_regexp. rewrite slice_rest_ok by (auto; lia). cbn [bind]. unfold m_value.
      rewrite H6. cbn [bind]. unfold scan_quoted, peek.
      destruct (nth_error t (pos sc)) as [ch|] eqn:E; [|apply nth_error_None in E; lia].
      replace ((ch =? SQUOTE) || (ch =? DQUOTE))%N with false.
      2:{ symmetry. apply orb_false_iff. split; apply N.eqb_neq; congruence. }
      replace (set_pos (pos sc) (set_st WithinTag sc)) with (set_st WithinTag sc) by (destruct sc; auto).
      apply within_tag_go; auto.
  - unfold internal_scan. rewrite H0. unfold scan_after_attribute_name.
    destruct (ws_boundary _ _ H1) as (L & B & b & Hb & W).
    rewrite eos_or_go by auto. rewrite H1, H0. auto.
  - unfold internal_scan. rewrite H0. unfold scan_after_attribute_name.
    rewrite eos_or_go by (eapply nth_error_lt; eauto).
    rewrite (skip_ws_not _ _ _ H1) by reflexivity. rewrite adv_if_char_eq by auto. auto.
  - unfold internal_scan. rewrite H0. unfold scan_before_attribute_value.
    destruct (ws_boundary _ _ H1) as (L & B & b & Hb & W).
    rewrite eos_or_go by auto. rewrite H1. auto.
  - unfold internal_scan. rewrite H0. apply plain_go; auto.
  - unfold internal_scan. rewrite H0. apply quoted_go; auto.
  - exfalso. apply Hns. reflexivity.
  - unfold internal_scan. rewrite H0. unfold scan_style.
    destruct H2 as (F1 & F2 & F3 & F4).
    assert (B : Bd t (pos sc)). { destruct HB as [HB|[HB|[HB|[HB|HB]]]]; auto; congruence. }
    rewrite eos_or_go by lia. unfold adv_until_regexp.
    rewrite slice_rest_ok by (auto using Bd_boundary; lia). cbn [bind].
    pose proof (find_str_first t (pos sc) (bs "</style") ltac:(lia) ltac:(discriminate)) as F.
    unfold m_style. destruct (find_str (bs "</style") (skipn (pos sc) t)) as [n|] eqn:Q; cbn [bind].
    + assert (pos sc + n = e) as -> by (eapply first_str_det; eauto; repeat split; auto).
      replace (pos sc <? e) with true by lia. auto.
    + assert (length t = e) as -> by (eapply first_str_det; eauto; repeat split; auto).
      replace (pos sc <? e) with true by lia. auto.
Qed.
End S.
