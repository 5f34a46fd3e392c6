(** * How a start tag decides what follows it. *)
From Verif Require Import Base Stream Scanner BaseFacts ScannerFacts ScanStep ScanProps ScanPanic ScanShape ScanResume.
From Coq Require Import ZifyBool ZifyNat ZifyN.

Section P.
Variable U : unicode.
Variable t : str.
Variable emit cs : bool.
Hypothesis HU : Utf8 t.
Notation scan := (scan U t emit cs).
Notation len := (length t).

(** [scans a l b]: successive calls of scan lead from [a] to [b], returning the tokens [l]. *)
Inductive scans (a : scanner) : list token -> scanner -> Prop :=
| scans_nil : scans a [] a
| scans_snoc l b c : scans a l b -> scan b = Ok c -> scans a (l ++ [token_of c]) c.

(** The text of a name token as the scanner remembers it: lower case unless case sensitive. *)
Definition norm_text (a b : nat) : str := norm U cs (sub t a b).
Definition is_type_name (k : token) : bool :=
  token_eqb (tk_type k) AttributeName && beq (norm_text (tk_off k) (tk_end k)) (bs "type").

Definition tag_inv (name : str) (typed : bool) (sc : scanner) : Prop :=
  last_tag sc = Some name /\ in_start_tag (st sc) = true /\
  (typed = false -> last_type sc = None /\ last_attr sc <> Some (bs "type")).

Lemma start_tag_inv sc sc' : scan sc = Ok sc' -> tok sc' = StartTag ->
  tag_inv (norm_text (tok_off sc') (pos sc')) false sc'.
Proof.
  intros H T. apply scan_outcome in H; auto. inv H; try discriminate.
  - repeat split; auto; discriminate.
  - inv H2; discriminate.
Qed.

Lemma new_type_none sc v : opt_beq (last_attr sc) (bs "type") = false -> new_type sc v = last_type sc.
Proof. unfold new_type. intros ->. auto. Qed.

Lemma not_type sc : last_attr sc <> Some (bs "type") -> opt_beq (last_attr sc) (bs "type") = false.
Proof.
  intros H. destruct (last_attr sc) as [a|]; auto. cbn [opt_beq]. apply beq_neq. congruence.
Qed.

Lemma tag_step_inv name sc sc' typed : tag_inv name typed sc -> scan sc = Ok sc' ->
  in_start_tag (st sc') = true -> tag_inv name (typed || is_type_name (token_of sc')) sc'.
Proof.
  intros (I1 & I2 & I3) H S. apply scan_outcome in H; auto.
  assert (CL : ~ content_like t sc).
  { intros [C|[[C _]|[C _]]]; rewrite C in I2; discriminate. }
  inv H; try discriminate; try tauto;
    try (match goal with X : st sc = _ |- _ => rewrite X in I2; discriminate end).
  - (* EOS *) unfold is_type_name. cbn. rewrite orb_false_r. split; [|split]; auto.
  - (* in tag *)
    assert (E : last_tag sc1 = Some name /\ st sc1 = WithinTag /\
                (typed = false -> last_type sc1 = None /\ last_attr sc1 <> Some (bs "type"))).
    { inv H1; cbn; auto. rewrite H in I2. discriminate. }
    destruct E as (E1 & E2 & E3).
    inv H2; try discriminate.
    + unfold is_type_name. cbn. rewrite orb_false_r. split; [|split]; auto.
    + unfold is_type_name. cbn [token_of tk_type tk_off tk_end tok tok_off pos finish].
      rewrite (proj2 (token_eqb_eq _ _) eq_refl). cbn [andb].
      split; [|split]; cbn; auto. intros Q. apply orb_false_iff in Q as [Q1 Q2].
      apply beq_neq in Q2. split; [apply E3; auto|]. unfold norm_text in Q2. cbn in Q2. congruence.
    + exfalso. cbn in S. unfold after_close in S. destruct (opt_beq _ _); [destruct (last_type sc1)|destruct (opt_beq _ _)]; discriminate.
    + unfold is_type_name. cbn. rewrite orb_false_r. unfold no_attr.
      destruct (has_space sc1); [destruct (peek_is t (pos sc1) EQ)|]; split; cbn; auto; split; auto;
        intros Q; destruct (E3 Q); split; auto; discriminate.
  - unfold is_type_name. cbn. rewrite orb_false_r. split; [|split]; auto.
  - unfold is_type_name. cbn. rewrite orb_false_r. split; [|split]; auto.
  - unfold is_type_name. cbn. rewrite orb_false_r. split; [|split]; auto.
  - unfold is_type_name. cbn [token_of tk_type tok finish]. rewrite (proj2 (token_eqb_neq AttributeValue AttributeName)) by discriminate.
    cbn [andb]. rewrite orb_false_r. split; [|split]; auto. intros Q. destruct (I3 Q). cbn.
    rewrite new_type_none by (apply not_type; auto). auto.
  - unfold is_type_name. cbn [token_of tk_type tok finish]. rewrite (proj2 (token_eqb_neq AttributeValue AttributeName)) by discriminate.
    cbn [andb]. rewrite orb_false_r. split; [|split]; auto. intros Q. destruct (I3 Q). cbn.
    rewrite new_type_none by (apply not_type; auto). auto.
Qed.

Lemma tag_scans_inv name a l b : tag_inv name false a -> scans a l b ->
  Forall (fun k => in_start_tag (tk_state k) = true) l -> tag_inv name (existsb is_type_name l) b.
Proof.
  intros I H. induction H as [|l b c H IH S]; intros F; auto.
  apply Forall_app in F as [F1 F2]. inv F2. rewrite existsb_app. cbn [existsb].
  rewrite orb_false_r. eapply tag_step_inv; eauto.
Qed.

(** The state after the '>' of a start tag. *)
Lemma tag_close_state name typed b c : tag_inv name typed b -> scan b = Ok c -> tok c = StartTagClose ->
  pos b < pos c ->
  (name = bs "script" -> typed = false -> st c = WithinScriptContent) /\
  (name = bs "style" -> st c = WithinStyleContent) /\
  (name <> bs "script" -> name <> bs "style" -> st c = WithinContent).
Proof.
  intros (I1 & I2 & I3) H T L. apply scan_outcome in H; auto.
  inv H; try discriminate. inv H2; try discriminate.
  2:{ pose proof (enter_tag_pos _ _ _ H1). cbn in L. lia. }
  assert (E : last_tag sc1 = Some name /\
                (typed = false -> last_type sc1 = None)).
  { inv H1; cbn; auto; try (split; [auto|intros Q; apply I3 in Q; tauto]). rewrite H2 in I2. discriminate. }
  destruct E as (E1 & E2). cbn. unfold after_close. rewrite E1. cbn [opt_beq].
  split; [|split].
  - intros -> Q. rewrite beq_refl, (E2 Q). auto.
  - intros ->. change (beq (bs "style") (bs "script")) with false. cbn iota. rewrite beq_refl. auto.
  - intros N1 N2. rewrite !(proj2 (beq_neq _ _)); auto.
Qed.

(** From the name of the tag to its '>'. *)
Lemma start_tag_effect sc0 sc1 l sc2 sc3 :
  scan sc0 = Ok sc1 -> tok sc1 = StartTag -> scans sc1 l sc2 ->
  Forall (fun k => in_start_tag (tk_state k) = true) l ->
  scan sc2 = Ok sc3 -> tok sc3 = StartTagClose -> pos sc2 < pos sc3 ->
  let name := norm_text (tok_off sc1) (pos sc1) in
  (name = bs "script" -> existsb is_type_name l = false -> st sc3 = WithinScriptContent) /\
  (name = bs "style" -> st sc3 = WithinStyleContent) /\
  (name <> bs "script" -> name <> bs "style" -> st sc3 = WithinContent).
Proof.
  intros S1 T1 Sl F S3 T3 L name. eapply tag_close_state; eauto.
  eapply tag_scans_inv; eauto. apply start_tag_inv with (sc := sc0); auto.
Qed.
End P.
