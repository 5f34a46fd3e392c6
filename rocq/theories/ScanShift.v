(** * The scanner looks forward only: text in front of where it stands does not
    matter *)
From Verif Require Import Base BaseFacts Stream Scanner ScannerFacts ScanStep ScanProps.
From Coq Require Import ZifyBool ZifyNat ZifyN.

Definition rmap {A B} (f : A -> B) (x : res A) : res B := bind x (fun v => Ok (f v)).

Section S.
Variable U : unicode.
Variable emit cs : bool.
Variables a s : str.
Hypothesis HA : Utf8 a.
Hypothesis HS : Utf8 s.
Notation t := (a ++ s).
Notation k := (length a).

Lemma HT : Utf8 t.
Proof. destruct HA as (c1 & H1 & ->), HS as (c2 & H2 & ->). exists (c1 ++ c2). rewrite forallb_app, H1, H2, encode_app. auto. Qed.

Lemma skipn_sh p : skipn (k + p) t = skipn p s.
Proof. rewrite skipn_app, skipn_all2 by lia. replace (k + p - k) with p by lia. reflexivity. Qed.
Lemma nth_sh p : nth_error t (k + p) = nth_error s p.
Proof. rewrite nth_error_app2 by lia. f_equal. lia. Qed.
Lemma eos_sh p : eos t (k + p) = eos s p.
Proof. unfold eos. rewrite app_length. lia. Qed.
Lemma peek_is_sh p b : peek_is t (k + p) b = peek_is s p b.
Proof. unfold peek_is, peek. rewrite nth_sh. reflexivity. Qed.
Lemma if_char_sh p b : adv_if_char t (k + p) b = option_map (Nat.add k) (adv_if_char s p b).
Proof. unfold adv_if_char. rewrite peek_is_sh. destruct (peek_is s p b); cbn [option_map]; auto. f_equal. lia. Qed.
Lemma if_chars_sh p w : adv_if_chars t (k + p) w = option_map (Nat.add k) (adv_if_chars s p w).
Proof. unfold adv_if_chars. rewrite skipn_sh. destruct (is_prefix w (skipn p s)); cbn [option_map]; auto. f_equal. lia. Qed.
Lemma until_char_sh p b : adv_until_char t (k + p) b = (fst (adv_until_char s p b), k + snd (adv_until_char s p b)).
Proof.
  unfold adv_until_char. rewrite skipn_sh. destruct (find_byte b (skipn p s)); cbn [fst snd].
  - f_equal. lia.
  - rewrite app_length. reflexivity.
Qed.
Lemma until_chars_sh p w : adv_until_chars t (k + p) w = k + adv_until_chars s p w.
Proof. unfold adv_until_chars. rewrite skipn_sh. destruct (find_str w (skipn p s)); [lia|rewrite app_length; auto]. Qed.
Lemma skip_ws_sh p : skip_ws t (k + p) = option_map (Nat.add k) (skip_ws s p).
Proof. unfold skip_ws. rewrite skipn_sh. destruct (ws_len (skipn p s)); cbn [option_map]; auto. f_equal. lia. Qed.
Lemma boundary_sh p : is_boundary t (k + p) = is_boundary s p.
Proof.
  unfold is_boundary. rewrite nth_sh, app_length. destruct (Nat.eq_dec p 0) as [->|NZ].
  - rewrite Nat.add_0_r. cbn [Nat.eqb orb]. pose proof (Bd_boundary t k) as B. unfold is_boundary in B.
    rewrite app_length in B. replace (nth_error s 0) with (nth_error t k) by (rewrite <- (Nat.add_0_r k) at 1; apply nth_sh).
    apply B. destruct HA as (c1 & H1 & E1), HS as (c2 & H2 & E2). exists c1, c2. repeat split; auto; rewrite ?encode_app; congruence.
  - replace (k + p =? 0) with (p =? 0) by lia. replace (k + p =? k + length s) with (p =? length s) by lia. reflexivity.
Qed.
Lemma slice_sh i j : slice t (k + i) (k + j) = slice s i j.
Proof.
  unfold slice. rewrite !boundary_sh, skipn_sh, app_length.
  replace (k + i <=? k + j) with (i <=? j) by lia. replace (k + j <=? k + length s) with (j <=? length s) by lia.
  replace (k + j - (k + i)) with (j - i) by lia. reflexivity.
Qed.
Lemma sub_sh i j : sub t (k + i) (k + j) = sub s i j.
Proof. unfold sub. rewrite skipn_sh. f_equal. lia. Qed.
Lemma rest_sh p : slice t (k + p) (length t) = slice s p (length s).
Proof. rewrite app_length. apply slice_sh. Qed.
Definition pair_sh (x : nat * nat) := (k + fst x, k + snd x).
Lemma if_regexp_sh m p : adv_if_regexp m t (k + p) = rmap (option_map pair_sh) (adv_if_regexp m s p).
Proof.
  unfold adv_if_regexp, rmap. rewrite rest_sh. destruct (slice s p (length s)) as [r| |]; cbn [bind]; auto.
  destruct (m r) as [[x y]|]; cbn [option_map]; auto. unfold pair_sh. cbn [fst snd]. do 3 f_equal; lia.
Qed.
Lemma until_regexp_sh m p : adv_until_regexp m t (k + p) = rmap (Nat.add k) (adv_until_regexp m s p).
Proof.
  unfold adv_until_regexp, rmap. rewrite rest_sh. destruct (slice s p (length s)) as [r| |]; cbn [bind]; auto.
  destruct (m r) as [[x y]|]; f_equal; [lia|]. rewrite app_length. auto.
Qed.
Lemma name_of_sh m p : name_of U t cs m (k + p) =
  rmap (option_map (fun x => (fst x, k + snd x))) (name_of U s cs m p).
Proof.
  unfold name_of. rewrite if_regexp_sh. unfold rmap. destruct (adv_if_regexp m s p) as [[[x y]|]| |]; cbn [bind option_map]; auto.
  unfold pair_sh. cbn [fst snd]. rewrite sub_sh. reflexivity.
Qed.

(** The scanner with everything it points to moved. *)
Definition sh (y : scanner) : scanner :=
  mkScanner (st y) (tok y) (k + tok_off y) (tok_err y) (k + pos y) (has_space y)
            (last_tag y) (last_attr y) (last_type y).
Lemma finish_sh y o tk er p q : finish (sh y) (k + o) tk er (k + p) q = sh (finish y o tk er p q).
Proof. reflexivity. Qed.
Lemma token_text_sh y : token_text t (sh y) = token_text s y.
Proof. unfold token_text. cbn [sh tok_off pos]. apply slice_sh. Qed.

Lemma eos_or_sh y f g : (forall p, f (k + p) = rmap sh (g p)) -> eos_or t (sh y) f = rmap sh (eos_or s y g).
Proof.
  intros H. unfold eos_or. cbn [sh pos]. rewrite eos_sh. destruct (eos s (pos y)); [reflexivity|apply H].
Qed.
Lemma plus1 p : k + p + 1 = k + (p + 1).
Proof. lia. Qed.

Lemma content_sh y : scan_content t (sh y) = rmap sh (scan_content s y).
Proof.
  unfold scan_content. apply eos_or_sh. intros p. rewrite if_char_sh.
  destruct (adv_if_char s p LT) as [q|]; cbn [option_map].
  - rewrite eos_sh, peek_is_sh, if_char_sh, if_chars_sh, if_regexp_sh.
    destruct (negb (eos s q) && peek_is s q BANG).
    + destruct (adv_if_chars s q (bs "!--")); [reflexivity|]. cbn [option_map]. unfold rmap.
      destruct (adv_if_regexp m_doctype s q) as [[[x z]|]| |]; cbn [bind option_map pair_sh fst snd]; auto.
      destruct (adv_if_char s q SLASH); reflexivity.
    + destruct (adv_if_char s q SLASH); reflexivity.
  - rewrite until_char_sh. reflexivity.
Qed.
Lemma end_tag_sh y : scan_within_end_tag t emit (sh y) = rmap sh (scan_within_end_tag s emit y).
Proof.
  unfold scan_within_end_tag. apply eos_or_sh. intros p. rewrite skip_ws_sh, if_char_sh, peek_is_sh, plus1.
  destruct (skip_ws s p); [reflexivity|]. destruct (adv_if_char s p GT); [reflexivity|]. cbn [option_map].
  destruct (emit && peek_is s p LT); reflexivity.
Qed.
Lemma rest_tag_sh y p : scan_within_tag_rest t emit (sh y) (k + p) = rmap sh (scan_within_tag_rest s emit y p).
Proof.
  unfold scan_within_tag_rest. rewrite if_chars_sh, if_char_sh, peek_is_sh, plus1.
  destruct (adv_if_chars s p (bs "/>")); [reflexivity|]. cbn [option_map].
  destruct (adv_if_char s p GT); [reflexivity|]. cbn [option_map].
  destruct (emit && peek_is s p LT); reflexivity.
Qed.
Lemma within_tag_sh y : scan_within_tag U t emit cs (sh y) = rmap sh (scan_within_tag U s emit cs y).
Proof.
  unfold scan_within_tag. apply eos_or_sh. intros p. rewrite skip_ws_sh. destruct (skip_ws s p); [reflexivity|].
  cbn [option_map]. cbn [sh has_space]. destruct (has_space y); [|apply rest_tag_sh].
  unfold next_attribute_name. rewrite name_of_sh. unfold rmap at 1.
  destruct (name_of U s cs m_attr_name p) as [[[n e]|]| |]; cbn [bind option_map fst snd]; [reflexivity| |reflexivity|reflexivity].
  rewrite peek_is_sh. destruct (peek_is s p EQ).
  - apply (rest_tag_sh (set_space false (set_last_attr None y))).
  - apply (rest_tag_sh (set_last_attr None y)).
Qed.
Lemma after_end_sh y : scan_after_opening_end_tag U t emit cs (sh y) = rmap sh (scan_after_opening_end_tag U s emit cs y).
Proof.
  unfold scan_after_opening_end_tag. apply eos_or_sh. intros p. unfold next_element_name. rewrite name_of_sh. unfold rmap at 1.
  destruct (name_of U s cs (m_element_name U) p) as [[[n e]|]| |]; cbn [bind option_map fst snd]; [reflexivity| |reflexivity|reflexivity].
  rewrite skip_ws_sh. destruct (skip_ws s p); [reflexivity|]. cbn [option_map].
  rewrite until_char_sh. cbn [snd]. replace (k + p <? k + snd (adv_until_char s p GT)) with (p <? snd (adv_until_char s p GT)) by lia.
  destruct (p <? _); [reflexivity|]. apply (end_tag_sh (set_st WithinEndTag y)).
Qed.
Lemma after_start_sh y : scan_after_opening_start_tag U t emit cs (sh y) = rmap sh (scan_after_opening_start_tag U s emit cs y).
Proof.
  unfold scan_after_opening_start_tag. apply eos_or_sh. intros p. unfold next_element_name. rewrite name_of_sh. unfold rmap at 1.
  destruct (name_of U s cs (m_element_name U) p) as [[[n e]|]| |]; cbn [bind option_map fst snd]; [reflexivity| |reflexivity|reflexivity].
  rewrite skip_ws_sh. destruct (skip_ws s p); [reflexivity|]. cbn [option_map].
  rewrite until_char_sh. cbn [snd]. replace (k + p <? k + snd (adv_until_char s p GT)) with (p <? snd (adv_until_char s p GT)) by lia.
  destruct (p <? _); [reflexivity|].
  apply (within_tag_sh (set_st WithinTag (set_last_attr None (set_last_type None (set_last_tag None y))))).
Qed.
Lemma after_attr_sh y : scan_after_attribute_name U t emit cs (sh y) = rmap sh (scan_after_attribute_name U s emit cs y).
Proof.
  unfold scan_after_attribute_name. apply eos_or_sh. intros p. rewrite skip_ws_sh, if_char_sh.
  destruct (skip_ws s p); [reflexivity|]. cbn [option_map]. destruct (adv_if_char s p EQ); [reflexivity|].
  apply (within_tag_sh (set_st WithinTag y)).
Qed.
Lemma quoted_sh y o p : scan_quoted U t emit cs (sh y) (k + o) (k + p) = rmap sh (scan_quoted U s emit cs y o p).
Proof.
  unfold scan_quoted. unfold peek. rewrite nth_sh.
  pose proof (within_tag_sh (set_space false (set_pos p (set_st WithinTag y)))) as F.
  destruct (nth_error s p) as [ch|] eqn:EP; [|exact F].
  destruct (_ || _)%bool; [|exact F]. rewrite !plus1, until_char_sh.
  apply nth_error_lt in EP.
  destruct (adv_until_char s (p + 1) ch) as [found q] eqn:E. cbn [fst snd].
  assert (LE : 1 <= (if found then q + 1 else q)).
  { destruct found; [lia|]. unfold adv_until_char in E. destruct (find_byte _ _); inv E. lia. }
  replace (if found then k + q + 1 else k + q) with (k + (if found then q + 1 else q)) by (destruct found; lia).
  set (e := if found then q + 1 else q) in *. clearbody e. cbn [sh last_attr].
  destruct (opt_beq (last_attr y) (bs "type")); [|reflexivity].
  replace (k + e - 1) with (k + (e - 1)) by lia.
  replace (k + (e - 1) <? k + (o + 1)) with (e - 1 <? o + 1) by lia.
  destruct (e - 1 <? o + 1); rewrite slice_sh; destruct (slice s _ _); reflexivity.
Qed.
Lemma value_no_gt p r : adv_if_regexp m_value s p = Ok (Some r) -> nth_error s p <> Some GT.
Proof.
  unfold adv_if_regexp. intros H Q. apply bind_ok in H as (x & X & H). apply slice_rest in X as (_ & _ & ->).
  rewrite (skipn_cons _ _ _ Q) in H. discriminate.
Qed.
Lemma before_value_sh y : scan_before_attribute_value U t emit cs (sh y) = rmap sh (scan_before_attribute_value U s emit cs y).
Proof.
  unfold scan_before_attribute_value. apply eos_or_sh. intros p. rewrite skip_ws_sh.
  destruct (skip_ws s p); [reflexivity|]. cbn [option_map]. rewrite if_regexp_sh. unfold rmap at 1.
  pose proof (value_no_gt p) as NG.
  destruct (adv_if_regexp m_value s p) as [[[b e]|]| |] eqn:R; cbn [bind option_map pair_sh fst snd];
    [|apply quoted_sh|reflexivity|reflexivity].
  specialize (NG _ eq_refl). unfold peek. rewrite nth_sh.
  set (g := match nth_error s p with Some c => match peek_back t (k + p) with Some d => _ | None => false end | None => false end).
  set (g' := match nth_error s p with Some c => match peek_back s p with Some d => _ | None => false end | None => false end).
  assert (G : g = false).
  { unfold g. destruct (nth_error s p) as [c|]; auto. destruct (peek_back t (k + p)); auto.
    destruct (N.eqb_spec c GT); auto. subst. tauto. }
  assert (G' : g' = false).
  { unfold g'. destruct (nth_error s p) as [c|]; auto. destruct (peek_back s p); auto.
    destruct (N.eqb_spec c GT); auto. subst. tauto. }
  rewrite G, G'. clear g g' G G'.
  assert (BE : b <= e).
  { unfold adv_if_regexp in R. apply bind_ok in R as (x & _ & R). unfold m_value in R.
    destruct (char_run val_char x); inv R. lia. }
  replace (k + e - (k + b)) with (e - b) by lia. rewrite !if_char_sh.
  assert (V : forall q, q = e + 1 -> slice t (k + q - (e - b) - 1) (k + q) = slice s (q - (e - b) - 1) q).
  { intros q ->. rewrite <- slice_sh. f_equal. lia. }
  assert (Q : forall c q, adv_if_char s e c = Some q -> q = e + 1).
  { intros c q H. apply adv_if_char_some in H as [_ ->]. auto. }
  replace (k + b + (e - b)) with (k + (b + (e - b))) by lia. rewrite sub_sh. cbn [sh last_attr].
  destruct (adv_if_char s e SQUOTE) as [q|] eqn:Q1; [|destruct (adv_if_char s e DQUOTE) as [q|] eqn:Q2]; cbn [option_map];
    rewrite ?V by eauto; try (destruct (slice s (q - (e - b) - 1) q) as [v| |]); cbn [bind]; try reflexivity.
  - destruct (0 <? length v); [destruct (opt_beq (last_attr y) (bs "type")); reflexivity|].
    destruct (opt_beq (last_attr y) (bs "type")); [apply (quoted_sh (set_last_type (nonempty v) y))|apply quoted_sh].
  - destruct (0 <? length v); [destruct (opt_beq (last_attr y) (bs "type")); reflexivity|].
    destruct (opt_beq (last_attr y) (bs "type")); [apply (quoted_sh (set_last_type (nonempty v) y))|apply quoted_sh].
  - set (v := sub s b (b + (e - b))). destruct (0 <? length v); [destruct (opt_beq (last_attr y) (bs "type")); reflexivity|].
    destruct (opt_beq (last_attr y) (bs "type")); [apply (quoted_sh (set_last_type (nonempty v) y))|apply quoted_sh].
Qed.

Definition script_sh (x : bool * nat) := (fst x, k + snd x).
Lemma script_match p b e : adv_if_regexp m_script s p = Ok (Some (b, e)) -> length (sub s b e) <= e.
Proof. intros _. unfold sub. rewrite firstn_length. lia. Qed.
Lemma script_loop_sh fuel : forall ss p, script_loop t fuel ss (k + p) = rmap script_sh (script_loop s fuel ss p).
Proof.
  induction fuel as [|fuel IH]; intros ss p; cbn [script_loop]; rewrite eos_sh; destruct (eos s p); try reflexivity.
  rewrite if_regexp_sh. unfold rmap at 1. pose proof (script_match p) as SM.
  destruct (adv_if_regexp m_script s p) as [[[b e]|]| |]; cbn [bind option_map pair_sh fst snd]; try reflexivity.
  - specialize (SM _ _ eq_refl). rewrite sub_sh. set (m := sub s b e) in *. clearbody m.
    destruct (beq m (bs "<!--")); [apply IH|]. destruct (beq m (bs "-->")); [apply IH|].
    destruct (slice m 1 2) as [c| |]; cbn [bind]; try reflexivity.
    destruct (negb (beq c [SLASH])); [apply IH|]. destruct (ss =? 3); [apply IH|].
    unfold rmap, script_sh. cbn [bind fst snd]. do 2 f_equal. lia.
  - unfold rmap, script_sh. cbn [bind fst snd]. rewrite app_length. reflexivity.
Qed.
Lemma script_loop_more u n ss : forall p m r, script_loop u n ss p = r -> r <> OutOfFuel -> n <= m -> script_loop u m ss p = r.
Proof.
  revert ss. induction n as [|n IH]; intros ss p m r H NE L.
  - cbn [script_loop] in H. destruct m; cbn [script_loop]; destruct (eos u p); auto; congruence.
  - destruct m as [|m]; [lia|]. cbn [script_loop] in *. destruct (eos u p); auto.
    destruct (adv_if_regexp m_script u p) as [[[b e]|]| |]; cbn [bind] in *; auto.
    destruct (beq _ _); [apply IH; auto; lia|]. destruct (beq _ _); [apply IH; auto; lia|].
    destruct (slice _ 1 2); cbn [bind] in *; auto.
    destruct (negb _); [apply IH; auto; lia|]. destruct (ss =? 3); [apply IH; auto; lia|auto].
Qed.
Lemma script_scan_sh y : scan_script t (sh y) = rmap sh (scan_script s y).
Proof.
  unfold scan_script. apply eos_or_sh. intros p.
  assert (E : script_loop t (length t) 1 (k + p) = rmap script_sh (script_loop s (length s) 1 p)).
  { rewrite <- script_loop_sh. eapply script_loop_more; [reflexivity| |rewrite app_length; lia].
    rewrite script_loop_sh. unfold rmap. pose proof (script_fuel s HS p). destruct (script_loop s (length s) 1 p); cbn [bind]; congruence. }
  rewrite E. unfold rmap at 1. destruct (script_loop s (length s) 1 p) as [[fin q]| |]; cbn [bind script_sh fst snd]; try reflexivity.
  destruct fin; [reflexivity|]. replace (k + p <? k + q) with (p <? q) by lia. destruct (p <? q); [reflexivity|].
  apply (content_sh (set_st WithinContent y)).
Qed.
Lemma style_sh y : scan_style t (sh y) = rmap sh (scan_style s y).
Proof.
  unfold scan_style. apply eos_or_sh. intros p. rewrite until_regexp_sh. unfold rmap at 1.
  destruct (adv_until_regexp m_style s p) as [q| |]; cbn [bind]; try reflexivity.
  replace (k + p <? k + q) with (p <? q) by lia. destruct (p <? q); [reflexivity|].
  apply (content_sh (set_st WithinContent y)).
Qed.

(** One step: the token found is the same, at the place it has moved to. *)
Theorem scan_sh y : scan U t emit cs (sh y) = rmap sh (scan U s emit cs y).
Proof.
  rewrite !scan_internal by auto using HT. unfold internal_scan. cbn [sh st]. destruct (st y).
  all: try (apply content_sh || apply end_tag_sh || apply within_tag_sh || apply after_end_sh || apply after_start_sh ||
            apply after_attr_sh || apply before_value_sh || apply script_scan_sh || apply style_sh).
  - unfold scan_doctype. apply eos_or_sh. intros p. rewrite if_char_sh, until_char_sh.
    destruct (adv_if_char s p GT); reflexivity.
  - unfold scan_comment. apply eos_or_sh. intros p. rewrite if_chars_sh, until_chars_sh.
    destruct (adv_if_chars s p (bs "-->")); reflexivity.
Qed.
End S.
