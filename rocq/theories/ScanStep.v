(** * Every scan step is described by [outcome]. *)
From Verif Require Import Base Stream Scanner BaseFacts ScannerFacts.
From Coq Require Import ZifyBool ZifyNat ZifyN.

Section S.
Variable U : unicode.
Variable t : str.
Variable emit cs : bool.
Hypothesis HU : Utf8 t.
Notation outcome := (outcome U t emit cs).
Notation tag_outcome := (tag_outcome U t emit cs).

Lemma eos_false p : eos t p = false <-> p < length t.
Proof. unfold eos. lia. Qed.

Lemma eos_or_ok sc k sc' :
  eos_or t sc k = Ok sc' ->
  (length t <= pos sc /\ sc' = finish sc (pos sc) EOS None (pos sc) (st sc)) \/
  (pos sc < length t /\ k (pos sc) = Ok sc').
Proof.
  unfold eos_or. destruct (eos t (pos sc)) eqn:E; intros H.
  - left. unfold eos in E. split; [lia|congruence].
  - right. apply eos_false in E. auto.
Qed.

Lemma name_of_elem p r :
  next_element_name U t cs p = Ok r ->
  match r with
  | Some (n, e) => elem_name U t p e /\ n = norm U cs (sub t p e)
  | None => is_boundary t p = true /\ m_element_name U (skipn p t) = None
  end.
Proof.
  unfold next_element_name, name_of. intros H. apply bind_ok in H as (x & H1 & H2).
  destruct x as [[s e]|]; apply Ok_inj in H2; subst r.
  - apply adv_if_regexp_some in H1 as (L & B & a' & b' & M & -> & ->).
    pose proof M as M'. apply m_element_name_some in M' as (-> & Hb & Hl & _).
    rewrite skipn_length in Hl. rewrite Nat.add_0_r. split; [|auto].
    repeat split; auto; try lia. rewrite M. do 2 f_equal. lia.
  - apply adv_if_regexp_none in H1. tauto.
Qed.

Lemma name_of_attr p r :
  next_attribute_name U t cs p = Ok r ->
  match r with
  | Some (n, e) => attr_name t p e /\ n = norm U cs (sub t p e)
  | None => is_boundary t p = true /\ char_run attr_char (skipn p t) = 0
  end.
Proof.
  unfold next_attribute_name, name_of. intros H. apply bind_ok in H as (x & H1 & H2).
  destruct x as [[s e]|]; apply Ok_inj in H2; subst r.
  - apply adv_if_regexp_some in H1 as (L & B & a' & b' & M & -> & ->).
    apply m_attr_name_some in M as (-> & Eb & Hb & Hl).
    rewrite skipn_length in Hl. rewrite Nat.add_0_r. split; [|auto].
    repeat split; auto; lia.
  - apply adv_if_regexp_none in H1 as (? & ? & H1). apply m_attr_name_none in H1. auto.
Qed.

(** WithinTag *)
Lemma within_tag_rest_ok sc sc' :
  pos sc < length t -> skip_ws t (pos sc) = None ->
  (has_space sc = true -> is_boundary t (pos sc) = true /\ char_run attr_char (skipn (pos sc) t) = 0) ->
  scan_within_tag_rest t emit (no_attr t sc) (pos sc) = Ok sc' -> tag_outcome sc sc'.
Proof.
  intros Hp Hw Ha. unfold scan_within_tag_rest.
  assert (E1 : last_tag (no_attr t sc) = last_tag sc)
    by (unfold no_attr; destruct (has_space sc), (peek_is t (pos sc) EQ); auto).
  assert (E2 : last_type (no_attr t sc) = last_type sc)
    by (unfold no_attr; destruct (has_space sc), (peek_is t (pos sc) EQ); auto).
  assert (E3 : st (no_attr t sc) = st sc)
    by (unfold no_attr; destruct (has_space sc), (peek_is t (pos sc) EQ); auto).
  destruct (adv_if_chars t (pos sc) (bs "/>")) as [p|] eqn:S1.
  { apply adv_if_chars_some in S1 as [S1 ->]. intros H; apply Ok_inj in H; subst sc'.
    apply TO_self_close; auto. }
  apply adv_if_chars_none in S1.
  destruct (adv_if_char t (pos sc) GT) as [p|] eqn:S2.
  { apply adv_if_char_some in S2 as [S2 ->]. rewrite E1, E2. intros H; apply Ok_inj in H; subst sc'.
    apply TO_close; auto. }
  apply adv_if_char_none in S2.
  destruct (emit && peek_is t (pos sc) LT) eqn:S3.
  { apply andb_true_iff in S3 as [S3 S4]. apply peek_is_true in S4.
    intros H; apply Ok_inj in H; subst sc'. apply TO_pseudo; auto. }
  rewrite E3. intros H; apply Ok_inj in H; subst sc'. apply TO_unknown; auto.
  intros ->. apply peek_is_false. auto.
Qed.

Lemma within_tag_ok sc sc' :
  scan_within_tag U t emit cs sc = Ok sc' -> pos sc < length t -> tag_outcome sc sc'.
Proof.
  unfold scan_within_tag. intros H Hp. apply eos_or_ok in H as [[? _]|[_ H]]; [lia|].
  destruct (skip_ws t (pos sc)) as [p|] eqn:W.
  { apply Ok_inj in H; subst sc'. apply TO_ws; auto. }
  destruct (has_space sc) eqn:Hs.
  - apply bind_ok in H as (r & R & H). apply name_of_attr in R.
    destruct r as [[n e]|].
    + destruct R as [R ->]. apply Ok_inj in H; subst sc'. apply TO_attr; auto.
    + apply within_tag_rest_ok; auto. unfold no_attr. rewrite Hs. auto.
  - apply within_tag_rest_ok; auto; [congruence|]. unfold no_attr. rewrite Hs. auto.
Qed.

Lemma within_end_tag_ok sc sc0 sc' :
  sc0 = sc \/ (st sc = AfterOpeningEndTag /\ nth_error t (pos sc) = Some GT /\ sc0 = set_st WithinEndTag sc) ->
  st sc0 = WithinEndTag ->
  scan_within_end_tag t emit sc0 = Ok sc' -> pos sc < length t -> outcome sc sc'.
Proof.
  intros Hsc Hst H Hp. unfold scan_within_end_tag in H. apply eos_or_ok in H as [[L _]|[_ H]].
  { destruct Hsc as [->|(? & ? & ->)]; simpl in L; lia. }
  destruct Hsc as [->|(S1 & S2 & ->)].
  - destruct (skip_ws t (pos sc)) as [p|] eqn:W.
    { apply Ok_inj in H; subst sc'. rewrite Hst. apply O_end_tag_ws2; auto. }
    destruct (adv_if_char t (pos sc) GT) as [p|] eqn:G.
    { apply adv_if_char_some in G as [G ->]. apply Ok_inj in H; subst sc'. apply O_end_tag_close; auto. }
    apply adv_if_char_none in G.
    destruct (emit && peek_is t (pos sc) LT) eqn:E.
    { apply andb_true_iff in E as [E1 E2]. apply peek_is_true in E2.
      apply Ok_inj in H; subst sc'. apply O_end_tag_pseudo; auto. }
    apply Ok_inj in H; subst sc'. apply O_end_tag_unexpected; auto.
    intros ->. apply peek_is_false. auto.
  - cbn [pos set_st] in H.
    destruct (skip_ws t (pos sc)) as [p|] eqn:W.
    { apply skip_ws_some in W as (W1 & W2 & W3 & _).
      destruct (W3 (pos sc)) as (b & Hb & Hw); [lia|lia|]. rewrite S2 in Hb. inv Hb. discriminate. }
    destruct (adv_if_char t (pos sc) GT) as [p|] eqn:G.
    2:{ apply adv_if_char_none in G. tauto. }
    apply adv_if_char_some in G as [G ->]. apply Ok_inj in H; subst sc'. apply (O_end_tag_close U t emit cs sc); auto.
Qed.

(** Names do not start with '>'. *)
Lemma first_byte_self p : p < length t -> snd (adv_until_char t p GT) <= p -> nth_error t p = Some GT.
Proof.
  intros Hp H. destruct (adv_until_char_spec t p GT) as ((F1 & F2 & F3 & F4) & _); [lia|].
  destruct F4; [lia|]. replace p with (snd (adv_until_char t p GT)) by lia. auto.
Qed.

(** WithinContent *)
Lemma content_ok sc sc0 sc' :
  content_like t sc -> pos sc < length t ->
  sc0 = sc \/ (sc0 = set_st WithinContent sc /\ nth_error t (pos sc) = Some LT) ->
  st sc0 = WithinContent ->
  scan_content t sc0 = Ok sc' -> outcome sc sc'.
Proof.
  intros Hc Hp Hsc Hst H.
  assert (Hpos : pos sc0 = pos sc) by (destruct Hsc as [->|[-> _]]; auto).
  assert (Hfin : forall o tk er p s, finish sc0 o tk er p s = finish sc o tk er p s)
    by (destruct Hsc as [->|[-> _]]; auto).
  unfold scan_content in H. apply eos_or_ok in H as [[L _]|[_ H]]; [lia|].
  rewrite !Hpos in H.
  destruct (adv_if_char t (pos sc) LT) as [p|] eqn:A.
  2:{ apply adv_if_char_none in A. destruct Hsc as [->|[_ Q]]; [|congruence].
      apply Ok_inj in H; subst sc'. rewrite Hst. apply O_content; auto.
      apply adv_until_char_spec. lia. }
  apply adv_if_char_some in A as [A ->].
  assert (Pl : forall x, is_prefix (60%N :: x) (skipn (pos sc) t) = is_prefix x (skipn (pos sc + 1) t)).
  { intros x. rewrite (skipn_cons _ _ _ A). reflexivity. }
  assert (D : m_doctype (skipn (pos sc + 1) t) = None ->
    is_prefix (bs "<!--") (skipn (pos sc) t) = false ->
    match adv_if_char t (pos sc + 1) SLASH with
          | Some q => Ok (finish sc0 (pos sc) EndTagOpen None q AfterOpeningEndTag)
          | None => Ok (finish sc0 (pos sc) StartTagOpen None (pos sc + 1) AfterOpeningStartTag)
          end = Ok sc' -> outcome sc sc').
  { intros N C E. destruct (adv_if_char t (pos sc + 1) SLASH) as [q|] eqn:B; rewrite Hfin in E.
    - apply adv_if_char_some in B as [B ->]. apply Ok_inj in E; subst sc'.
      replace (pos sc + 1 + 1) with (pos sc + 2) by lia. apply O_end_tag_open; auto.
    - apply adv_if_char_none in B. apply Ok_inj in E; subst sc'.
      apply O_start_tag_open; auto. }
  destruct (negb (eos t (pos sc + 1)) && peek_is t (pos sc + 1) BANG) eqn:B.
  - destruct (adv_if_chars t (pos sc + 1) (bs "!--")) as [q|] eqn:C.
    + apply adv_if_chars_some in C as [C ->]. rewrite Hfin in H. apply Ok_inj in H; subst sc'.
      change (length (bs "!--")) with 3. replace (pos sc + 1 + 3) with (pos sc + 4) by lia.
      apply O_start_comment; auto. change (bs "<!--") with (60%N :: bs "!--"). rewrite Pl. auto.
    + apply adv_if_chars_none in C. apply bind_ok in H as (r & R & H).
      destruct r as [[s e]|].
      * apply adv_if_regexp_some in R as (R1 & R2 & a' & b' & M & -> & ->).
        pose proof M as M'. apply m_doctype_some in M' as (-> & -> & _).
        rewrite Hfin in H. apply Ok_inj in H; subst sc'.
        replace (pos sc + 1 + 8) with (pos sc + 9) by lia. apply O_start_doctype; auto.
      * apply adv_if_regexp_none in R as (R1 & R2 & R3). apply D; auto.
        change (bs "<!--") with (60%N :: bs "!--"). rewrite Pl. auto.
  - assert (NB : nth_error t (pos sc + 1) <> Some BANG).
    { intros Q. rewrite (proj2 (peek_is_true t _ _) Q), andb_true_r in B.
      apply nth_error_lt in Q. unfold eos in B. lia. }
    apply D; auto.
    + unfold m_doctype. destruct (skipn (pos sc + 1) t) as [|x r] eqn:E; auto.
      destruct (N.eqb_spec x 33) as [->|]; auto.
      exfalso. apply NB. rewrite <- (Nat.add_0_r (pos sc + 1)), <- skipn_nth_error, E. auto.
    + change (bs "<!--") with (60%N :: 33%N :: bs "--"). rewrite Pl.
      destruct (skipn (pos sc + 1) t) as [|x r] eqn:E; auto. cbn [is_prefix].
      destruct (N.eqb_spec 33 x) as [<-|]; auto.
      exfalso. apply NB. rewrite <- (Nat.add_0_r (pos sc + 1)), <- skipn_nth_error, E. auto.
Qed.

Lemma set_pos_self sc : set_pos (pos sc) sc = sc.
Proof. destruct sc; auto. Qed.

Lemma finish_last_type sc v o tk er p s :
  finish (set_space false (set_last_type v sc)) o tk er p s
  = mkScanner s tk o er p false (last_tag sc) (last_attr sc) v.
Proof. reflexivity. Qed.

(** Attribute values *)
Lemma quoted_ok sc sc' :
  st sc = BeforeAttributeValue -> pos sc < length t -> skip_ws t (pos sc) = None ->
  is_boundary t (pos sc) = true -> char_run val_char (skipn (pos sc) t) = 0 ->
  scan_quoted U t emit cs sc (pos sc) (pos sc) = Ok sc' -> outcome sc sc'.
Proof.
  intros Hst Hp Hw Hb Hv H. unfold scan_quoted in H.
  unfold peek in H. destruct (nth_error t (pos sc)) as [ch|] eqn:E.
  2:{ apply nth_error_None in E. lia. }
  destruct (N.eqb ch SQUOTE || N.eqb ch DQUOTE) eqn:Q.
  - assert (Hq : ch = SQUOTE \/ ch = DQUOTE)
      by (apply orb_true_iff in Q as [Q|Q]; apply N.eqb_eq in Q; auto).
    destruct (adv_until_char t (pos sc + 1) ch) as [found q] eqn:F.
    destruct (adv_until_char_spec t (pos sc + 1) ch ltac:(lia)) as ((F1 & F2 & F3 & F4) & F5 & F6).
    rewrite F in *. cbn [fst snd] in *.
    set (p := if found then q + 1 else q) in *.
    assert (Hqv : quoted_value t (pos sc) p).
    { exists ch. unfold p. destruct found.
      - specialize (F5 eq_refl). pose proof (nth_error_lt _ _ _ F5).
        replace (q + 1 - 1) with q by lia. repeat split; auto; try lia.
        left. split; auto. lia.
      - specialize (F6 eq_refl). subst q. repeat split; auto; try lia.
        + intros i I1 I2. apply F3; lia.
        + right. split; auto. destruct (Nat.le_gt_cases (length t - 1) (pos sc)); auto.
          right. apply F3; lia. }
    apply bind_ok in H as (sc1 & H1 & H). apply Ok_inj in H; subst sc'.
    assert (Hsc1 : sc1 = set_last_type (new_type sc
                          (if p - 1 <? pos sc + 1 then sub t (p - 1) (pos sc + 1)
                           else sub t (pos sc + 1) (p - 1))) sc /\
             (opt_beq (last_attr sc) (bs "type") = true ->
              is_boundary t (pos sc + 1) = true /\ is_boundary t (p - 1) = true)).
    { unfold new_type. destruct (opt_beq (last_attr sc) (bs "type")) eqn:T.
      - apply bind_ok in H1 as (s & S1 & S2). apply Ok_inj in S2.
        destruct (p - 1 <? pos sc + 1) eqn:C; apply slice_ok in S1 as (A1 & A2 & A3 & A4 & ->); auto.
      - apply Ok_inj in H1. subst sc1. split; [destruct sc; auto|discriminate]. }
    destruct Hsc1 as [-> Hbd]. apply O_value_quoted; auto.
  - apply orb_false_iff in Q as [Q1 Q2]. apply N.eqb_neq in Q1, Q2.
    apply within_tag_ok in H; [|simpl; lia].
    eapply O_in_tag; [auto| |exact H].
    replace (set_pos (pos sc) (set_st WithinTag sc)) with (set_st WithinTag sc) by (destruct sc; auto).
    apply ET_value; auto; congruence.
Qed.

Lemma before_value_ok sc sc' :
  st sc = BeforeAttributeValue ->
  scan_before_attribute_value U t emit cs sc = Ok sc' -> outcome sc sc'.
Proof.
  intros Hst H. unfold scan_before_attribute_value in H.
  apply eos_or_ok in H as [[L ->]|[Hp H]]; [apply O_eos; auto|].
  destruct (skip_ws t (pos sc)) as [p|] eqn:W.
  { apply Ok_inj in H; subst sc'. apply O_value_ws; auto. }
  apply bind_ok in H as (r & R & H). destruct r as [[s e]|].
  2:{ apply adv_if_regexp_none in R as (R1 & R2 & R3). apply m_value_none in R3.
      apply quoted_ok; auto. }
  apply adv_if_regexp_some in R as (R1 & R2 & a' & b' & M & -> & ->).
  apply m_value_some in M as (-> & Eb & Hb & Hl). rewrite skipn_length in Hl.
  (* is_go_back is false: the first character of a value is not '>' *)
  assert (GB : (match peek t (pos sc) with
                | Some c => match peek_back t (pos sc) with
                            | Some d => N.eqb c GT && N.eqb d SLASH
                            | None => false end
                | None => false end) = false).
  { unfold peek. destruct (nth_error t (pos sc)) as [c|] eqn:C; auto.
    destruct (peek_back t (pos sc)); auto. destruct (N.eqb_spec c GT) as [->|]; auto.
    exfalso. rewrite (skipn_cons _ _ _ C) in Eb. change (char_run val_char (GT :: skipn (pos sc + 1) t)) with 0 in Eb. lia. }
  cbv zeta in H. rewrite GB in H. cbn iota in H.
  rewrite Nat.add_0_r in H.
  set (n := b') in *. replace (pos sc + n - pos sc) with n in H by lia.
  assert (Hpv : forall e', (e' = pos sc + n + 1 /\ (nth_error t (pos sc + n) = Some SQUOTE \/ nth_error t (pos sc + n) = Some DQUOTE)) \/
     (e' = pos sc + n /\ ~ nth_error t e' = Some SQUOTE /\ ~ nth_error t e' = Some DQUOTE) -> plain_value t (pos sc) e').
  { intros e' He. repeat split; auto.
    - destruct He as [[-> _]|[-> _]]; lia.
    - destruct He as [[-> [Q|Q]]|[-> _]]; try (apply nth_error_lt in Q); lia.
    - exists n. auto. }
  assert (Hlast : forall v, v <> [] ->
     (if opt_beq (last_attr sc) (bs "type") then set_last_type (nonempty v) sc else sc)
     = set_last_type (new_type sc v) sc).
  { intros v _. unfold new_type. destruct (opt_beq _ _); auto. destruct sc; auto. }
  assert (Main : forall p v,
     (p = pos sc + n + 1 /\ (nth_error t (pos sc + n) = Some SQUOTE \/ nth_error t (pos sc + n) = Some DQUOTE)) \/
     (p = pos sc + n /\ ~ nth_error t p = Some SQUOTE /\ ~ nth_error t p = Some DQUOTE) ->
     v = sub t (pos sc) p ->
     (if 0 <? length v
      then Ok (finish (set_space false (if opt_beq (last_attr sc) (bs "type") then set_last_type (nonempty v) sc else sc)) (pos sc) AttributeValue None p WithinTag)
      else scan_quoted U t emit cs (if opt_beq (last_attr sc) (bs "type") then set_last_type (nonempty v) sc else sc) (pos sc) p) = Ok sc' -> outcome sc sc').
  { intros p v Hp' -> Hr. pose proof (Hpv _ Hp') as (P1 & P2 & _).
    rewrite sub_length in Hr by lia. replace (0 <? p - pos sc) with true in Hr by lia.
    rewrite Hlast in Hr. 2:{ intros Q. apply (f_equal (@length N)) in Q. rewrite sub_length in Q by lia. simpl in Q. lia. }
    apply Ok_inj in Hr; subst sc'. apply O_value_plain; auto. }
  destruct (adv_if_char t (pos sc + n) SQUOTE) as [p|] eqn:S1.
  - apply adv_if_char_some in S1 as [S1 ->]. apply bind_ok in H as (v & V & H).
    apply slice_ok in V as (V1 & V2 & V3 & V4 & V5).
    replace (pos sc + n + 1 - n - 1) with (pos sc) in V5 by lia.
    apply (Main (pos sc + n + 1) v); auto.
  - apply adv_if_char_none in S1.
    destruct (adv_if_char t (pos sc + n) DQUOTE) as [p|] eqn:S2.
    + apply adv_if_char_some in S2 as [S2 ->]. apply bind_ok in H as (v & V & H).
      apply slice_ok in V as (V1 & V2 & V3 & V4 & V5).
      replace (pos sc + n + 1 - n - 1) with (pos sc) in V5 by lia.
      apply (Main (pos sc + n + 1) v); auto.
    + apply adv_if_char_none in S2. cbn [bind] in H.
      apply (Main (pos sc + n) (sub t (pos sc) (pos sc + n))); auto.
Qed.

Theorem internal_scan_outcome sc sc' :
  internal_scan U t emit cs sc = Ok sc' -> outcome sc sc'.
Proof.
  unfold internal_scan. destruct (st sc) eqn:Hst; intros H.
  - (* WithinContent *)
    pose proof H as H'. unfold scan_content in H'. apply eos_or_ok in H' as [[L ->]|[Hp _]].
    + apply O_eos. auto.
    + eapply content_ok; eauto. left. auto.
  - (* AfterOpeningStartTag *)
    unfold scan_after_opening_start_tag in H.
    apply eos_or_ok in H as [[L ->]|[Hp H]]; [apply O_eos; auto|].
    apply bind_ok in H as (r & R & H). apply name_of_elem in R.
    destruct r as [[n e]|]; cbn [option_map fst] in H.
    + destruct R as [R ->]. apply Ok_inj in H; subst sc'. apply (O_start_tag U t emit cs sc e); auto.
    + destruct R as [R1 R2]. destruct (skip_ws t (pos sc)) as [p|] eqn:W.
      { apply Ok_inj in H; subst sc'. cbn [st set_last_attr set_last_type set_last_tag]. rewrite Hst.
        apply O_start_tag_ws; auto. }
      destruct (adv_until_char_spec t (pos sc) GT ltac:(lia)) as (F & _).
      cbv zeta in H. destruct (pos sc <? snd (adv_until_char t (pos sc) GT)) eqn:C.
      * apply Ok_inj in H; subst sc'. apply O_start_tag_unknown; auto. lia.
      * apply within_tag_ok in H; [|simpl; lia].
        eapply O_in_tag; eauto. apply ET_open; auto. apply first_byte_self; lia.
  - (* AfterOpeningEndTag *)
    unfold scan_after_opening_end_tag in H.
    apply eos_or_ok in H as [[L ->]|[Hp H]]; [apply O_eos; auto|].
    apply bind_ok in H as (r & R & H). apply name_of_elem in R.
    destruct r as [[n e]|].
    + destruct R as [R ->]. apply Ok_inj in H; subst sc'. apply O_end_tag; auto.
    + destruct R as [R1 R2]. destruct (skip_ws t (pos sc)) as [p|] eqn:W.
      { apply Ok_inj in H; subst sc'. rewrite Hst. apply O_end_tag_ws; auto. }
      destruct (adv_until_char_spec t (pos sc) GT ltac:(lia)) as (F & _).
      cbv zeta in H. destruct (pos sc <? snd (adv_until_char t (pos sc) GT)) eqn:C.
      * apply Ok_inj in H; subst sc'. apply O_end_tag_unknown; auto. lia.
      * apply within_end_tag_ok with (sc0 := set_st WithinEndTag sc); auto.
        right. repeat split; auto. apply first_byte_self; lia.
  - (* WithinDoctype *)
    unfold scan_doctype in H. apply eos_or_ok in H as [[L ->]|[Hp H]]; [apply O_eos; auto|].
    destruct (adv_if_char t (pos sc) GT) as [p|] eqn:A.
    + apply adv_if_char_some in A as [A ->]. apply Ok_inj in H; subst sc'. apply O_end_doctype; auto.
    + apply adv_if_char_none in A. apply Ok_inj in H; subst sc'. rewrite Hst. apply O_doctype; auto.
      apply adv_until_char_spec. lia.
  - (* WithinTag *)
    destruct (Nat.lt_ge_cases (pos sc) (length t)) as [Hp|Hp].
    + apply within_tag_ok in H; auto. eapply O_in_tag; eauto. apply ET_tag; auto.
    + unfold scan_within_tag in H. apply eos_or_ok in H as [[L ->]|[L _]]; [apply O_eos; auto|lia].
  - (* WithinEndTag *)
    destruct (Nat.lt_ge_cases (pos sc) (length t)) as [Hp|Hp].
    + eapply within_end_tag_ok; eauto.
    + unfold scan_within_end_tag in H. apply eos_or_ok in H as [[L ->]|[L _]]; [apply O_eos; auto|lia].
  - (* WithinComment *)
    unfold scan_comment in H. apply eos_or_ok in H as [[L ->]|[Hp H]]; [apply O_eos; auto|].
    destruct (adv_if_chars t (pos sc) (bs "-->")) as [p|] eqn:A.
    + apply adv_if_chars_some in A as [A ->]. apply Ok_inj in H; subst sc'. apply O_end_comment; auto.
    + apply adv_if_chars_none in A. apply Ok_inj in H; subst sc'. rewrite Hst. apply O_comment; auto.
      apply adv_until_chars_spec; [lia|discriminate].
  - (* WithinScriptContent *)
    unfold scan_script in H. apply eos_or_ok in H as [[L ->]|[Hp H]]; [apply O_eos; auto|].
    apply bind_ok in H as ([fin q] & R & H).
    assert (HB : Bd t (pos sc)).
    { destruct (length t) as [|m] eqn:E; [lia|]. cbn [script_loop] in R.
      destruct (eos t (pos sc)) eqn:Eo; [unfold eos in Eo; lia|].
      apply bind_ok in R as (r & R & _). unfold adv_if_regexp in R. apply bind_ok in R as (x & R & _).
      rewrite E in R. apply slice_ok in R as (_ & _ & R & _). apply boundary_Bd; auto. lia. }
    destruct (script_loop_spec t HU (length t) 1 (pos sc) HB ltac:(lia)) as (fin' & q' & S1 & S2 & S3).
    rewrite R in S1. inv S1. pose proof (script_run_le _ _ _ _ S2).
    destruct fin'.
    + specialize (S3 eq_refl). subst q'. apply Ok_inj in H; subst sc'. rewrite Hst.
      apply O_script; auto.
    + destruct (pos sc <? q') eqn:C.
      * apply Ok_inj in H; subst sc'. apply O_script; auto. lia.
      * assert (q' = pos sc) by lia. subst q'.
        assert (nth_error t (pos sc) = Some LT).
        { inv S2; try lia.
          all: try (match goal with X : script_run _ _ _ _ |- _ => apply script_run_le in X; lia end).
          apply is_prefix_spec in H2 as (x & H2).
          rewrite <- (Nat.add_0_r (pos sc)), <- skipn_nth_error, H2. auto. }
        eapply content_ok with (sc0 := set_st WithinContent sc); eauto.
        right. left. auto.
  - (* WithinStyleContent *)
    unfold scan_style in H. apply eos_or_ok in H as [[L ->]|[Hp H]]; [apply O_eos; auto|].
    apply bind_ok in H as (p & R & H). unfold adv_until_regexp in R.
    apply bind_ok in R as (x & R & Q). apply slice_rest in R as (_ & _ & ->).
    apply Ok_inj in Q. unfold m_style in Q.
    pose proof (find_str_first t (pos sc) (bs "</style") ltac:(lia) ltac:(discriminate)) as F.
    replace p with (match find_str (bs "</style") (skipn (pos sc) t) with
        | Some n => pos sc + n | None => length t end) in *
      by (rewrite <- Q; destruct (find_str _ _); auto).
    clear Q p. set (p := match find_str _ _ with Some n => _ | None => _ end) in *.
    destruct (pos sc <? p) eqn:C.
    + apply Ok_inj in H; subst sc'. apply O_style; auto. lia.
    + destruct F as (F1 & F2 & F3 & F4). assert (p = pos sc) by lia.
      destruct F4 as [F4|[F4 _]]; [|lia]. rewrite H0 in F4.
      eapply content_ok with (sc0 := set_st WithinContent sc); eauto.
      * right. right. auto.
      * right. split; auto. apply is_prefix_spec in F4 as (r & F4).
        rewrite <- (Nat.add_0_r (pos sc)), <- skipn_nth_error, F4. auto.
  - (* AfterAttributeName *)
    unfold scan_after_attribute_name in H. apply eos_or_ok in H as [[L ->]|[Hp H]]; [apply O_eos; auto|].
    destruct (skip_ws t (pos sc)) as [p|] eqn:W.
    { apply Ok_inj in H; subst sc'. rewrite Hst. apply O_attr_ws; auto. }
    destruct (adv_if_char t (pos sc) EQ) as [p|] eqn:A.
    + apply adv_if_char_some in A as [A ->]. apply Ok_inj in H; subst sc'. apply O_assign; auto.
    + apply adv_if_char_none in A. apply within_tag_ok in H; [|simpl; lia].
      eapply O_in_tag; eauto. apply ET_attr; auto.
  - (* BeforeAttributeValue *)
    apply before_value_ok; auto.
Qed.

(** Every outcome either is EOS at the end, advances, or is a pseudo close. *)
Lemma enter_tag_pos sc sc1 : enter_tag t sc sc1 -> pos sc1 = pos sc.
Proof. intros H; inv H; auto. Qed.

Lemma outcome_progress sc sc' : outcome sc sc' ->
  tok_off sc' = pos sc /\
  ((tok sc' = EOS /\ length t <= pos sc /\ pos sc' = pos sc /\ st sc' = st sc) \/
   (tok sc' <> EOS /\ pos sc < pos sc' /\ pos sc' <= length t) \/
   (emit = true /\ (tok sc' = StartTagClose \/ tok sc' = EndTagClose) /\ pos sc' = pos sc /\
    nth_error t (pos sc) = Some LT /\ st sc' = WithinContent /\
    st sc <> WithinContent /\ st sc <> WithinScriptContent /\ st sc <> WithinStyleContent)).
Proof.
  Local Ltac lit := match goal with H : is_prefix _ (skipn _ _) = true |- _ =>
    apply is_prefix_skipn_length in H; [cbn [length bs] in H; cbn [pos finish]; lia | discriminate] end.
  Local Ltac byte := match goal with H : nth_error _ _ = Some _ |- _ => apply nth_error_lt in H;
     cbn [pos finish]; lia end.
  intros H; inv H; cbn [tok tok_off pos st finish]; (split; [try reflexivity|]);
    try (right; left; split; [discriminate|]; split; [lia|]; (lit || byte || (cbn [pos finish]; lia))).
  - left; auto.
  - right; left. split; [discriminate|]. destruct H3 as (F1 & F2 & F3 & F4).
    assert (pos sc <> e); [|lia]. intros <-. destruct F4 as [F4|[F4 _]]; [congruence|lia].
  - right; left. split; [discriminate|]. destruct H3 as (F1 & F2 & F3 & F4).
    assert (pos sc <> e); [|lia]. intros <-. destruct F4 as [F4|F4]; [lia|congruence].
  - right; left. split; [discriminate|]. apply m_doctype_some in H3 as (_ & _ & L & _).
    rewrite skipn_length in L. lia.
  - right; left. split; [discriminate|]. destruct H3 as (F1 & F2 & F3 & F4).
    assert (pos sc <> e); [|lia]. intros <-. destruct F4 as [F4|F4]; [lia|congruence].
  - right; left. split; [discriminate|]. destruct H1 as (? & ? & _). lia.
  - right; left. split; [discriminate|]. apply skip_ws_some in H1. lia.
  - right; left. split; [discriminate|]. destruct H1 as (? & ? & _). lia.
  - right; left. split; [discriminate|]. apply skip_ws_some in H1. lia.
  - right; right. rewrite H0. repeat split; auto; discriminate.
  - right; left. split; [discriminate|]. destruct H1 as (? & ? & _). lia.
  - right; left. split; [discriminate|]. apply skip_ws_some in H1. lia.
  - right; left. split; [discriminate|]. destruct H1 as (? & ? & _). lia.
  - apply enter_tag_pos in H1. inv H2; auto.
  - pose proof (enter_tag_pos _ _ H1) as E. rewrite <- E.
    inv H2; cbn [tok tok_off pos st finish];
      try (right; left; split; [discriminate|]; split; [lia|]; (lit || byte || (cbn [pos finish]; lia))).
    + right; left. split; [discriminate|]. apply skip_ws_some in H. lia.
    + right; left. split; [discriminate|]. destruct H4 as (? & ? & _). lia.
    + right; right. repeat split; auto; inv H1; congruence.
  - right; left. split; [discriminate|]. apply skip_ws_some in H1. lia.
  - right; left. split; [discriminate|]. apply skip_ws_some in H1. lia.
  - right; left. split; [discriminate|]. destruct H2 as (? & ? & _). lia.
  - right; left. split; [discriminate|]. destruct H1 as (q & ? & ? & ? & ? & _). lia.
  - right; left. split; [discriminate|]. apply script_run_le in H2. lia.
  - right; left. split; [discriminate|]. destruct H2 as (? & ? & _). lia.
Qed.

(** The recovery branch of [scan] never runs. *)
Theorem scan_internal sc : scan U t emit cs sc = internal_scan U t emit cs sc.
Proof.
  unfold scan. destruct (internal_scan U t emit cs sc) as [sc'| |] eqn:E; auto. cbn [bind].
  apply internal_scan_outcome, outcome_progress in E as (_ & E).
  destruct E as [(E & _)|[(_ & E & _)|(E1 & E2 & _)]].
  - rewrite (proj2 (token_eqb_eq _ _) E). auto.
  - replace (pos sc =? pos sc') with false by lia. rewrite andb_false_r. auto.
  - rewrite E1. destruct E2 as [-> | ->]; rewrite ?andb_false_r; auto.
Qed.

Theorem scan_outcome sc sc' : scan U t emit cs sc = Ok sc' -> outcome sc sc'.
Proof. rewrite scan_internal. apply internal_scan_outcome. Qed.
End S.
