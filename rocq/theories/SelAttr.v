(** * Attribute-level selection ranges *)
From Verif Require Import Base Stream Scanner BaseFacts ScannerFacts ScanStep ScanProps ScanShape ScanResume
  ScanComplete ScanLocal Tree Parser ParseSpec ParseInv TextDoc SelectionRange.
From Coq Require Import ZifyBool ZifyNat ZifyN.

(** ** Runs of the scanner *)
Inductive runs (U : unicode) (t : str) (emit cs : bool) : scanner -> list scanner -> scanner -> Prop :=
| runs_nil sc : runs U t emit cs sc [] sc
| runs_cons sc sc' l f : scan U t emit cs sc = Ok sc' -> tok sc' <> EOS ->
    runs U t emit cs sc' l f -> runs U t emit cs sc (sc' :: l) f.

Lemma tokens_runs U t emit cs l1 : forall fuel sc l2 f, tokens U t emit cs fuel sc = Ok (l1 ++ l2, f) ->
  exists m sc' fuel', runs U t emit cs sc m sc' /\ map token_of m = l1 /\
    tokens U t emit cs fuel' sc' = Ok (l2, f).
Proof.
  induction l1 as [|k l1 IH]; intros fuel sc l2 f H.
  - exists [], sc, fuel. repeat split; auto. constructor.
  - destruct fuel as [|fuel]; [discriminate|]. cbn [tokens] in H. apply bind_ok in H as (sc' & S & H).
    destruct (token_eqb (tok sc') EOS) eqn:E; [inv H|].
    apply bind_ok in H as ([l' f'] & T & H). cbn [app] in H. inv H.
    destruct (IH _ _ _ _ T) as (m & sc2 & fu & R1 & R2 & R3).
    exists (sc' :: m), sc2, fu. repeat split; auto.
    + constructor; auto. apply token_eqb_neq. auto.
    + cbn [map]. rewrite R2. auto.
Qed.

Lemma runs_pos U t emit cs sc m f : Utf8 t -> runs U t emit cs sc m f -> pos sc <= pos f.
Proof.
  intros HU H. induction H; auto. apply scan_outcome in H; auto.
  apply outcome_progress in H as (_ & [(? & _)|[(_ & ? & _)|(_ & _ & ? & _)]]); auto; try lia; congruence.
Qed.
Lemma runs_app U t emit cs sc m1 m2 f : runs U t emit cs sc (m1 ++ m2) f ->
  exists g, runs U t emit cs sc m1 g /\ runs U t emit cs g m2 f.
Proof.
  revert sc. induction m1 as [|c m1 IH]; intros sc H.
  - exists sc. split; auto. constructor.
  - cbn [app] in H. inv H. destruct (IH _ H6) as (g & G1 & G2). exists g. split; auto. constructor; auto.
Qed.

Lemma runs_inv U t emit cs sc z m f : runs U t emit cs sc (z :: m) f ->
  scan U t emit cs sc = Ok z /\ tok z <> EOS /\ runs U t emit cs z m f.
Proof. intros H. inversion H; subst; auto. Qed.

(** ** What one step can be, as far as attributes are concerned *)
Inductive kind (y y' : scanner) : Prop :=
| K_name : tok y' = AttributeName -> has_space y = true -> has_space y' = false ->
    st y' = AfterAttributeName -> kind y y'
| K_value : tok y' = AttributeValue -> st y = BeforeAttributeValue -> has_space y' = false ->
    st y' = WithinTag -> kind y y'
| K_after : tok y' = Whitespace \/ tok y' = DelimiterAssign -> st y = AfterAttributeName ->
    (st y' = AfterAttributeName \/ st y' = BeforeAttributeValue) -> kind y y'
| K_other : tok y' <> AttributeName -> tok y' <> AttributeValue ->
    st y' <> AfterAttributeName -> st y' <> BeforeAttributeValue -> kind y y'.

Lemma step_kind U x cs y y' : Utf8 x -> scan U x false cs y = Ok y' -> tok y' <> EOS ->
  pos y < pos y' /\ pos y' <= length x /\ tok_off y' = pos y /\ kind y y'.
Proof.
  intros HU S NE. apply scan_outcome in S; auto. pose proof (outcome_progress _ _ _ _ _ _ S) as (P1 & P2).
  destruct P2 as [(? & _)|[(_ & P2 & P3)|(? & _)]]; [congruence| |discriminate].
  split; auto. split; auto. split; auto.
  assert (NG : forall p e, nth_error x p = Some GT -> attr_name x p e -> False).
  { intros p e G (A1 & _ & _ & A2). rewrite (char_run_at_ascii x attr_char p GT) in A2; auto; [lia|reflexivity]. }
  inversion S; subst; cbn [tok st finish has_space set_space] in *;
    try (apply K_other; cbn; congruence).
  - (* in tag *)
    inversion H0; subst; inversion H1; subst;
      cbn [tok st finish has_space set_space set_st reset set_last_attr set_last_tag set_last_type pos] in *;
      try discriminate; try (exfalso; eapply NG; eassumption);
      try (apply K_name; cbn; auto; congruence);
      try (apply K_other; cbn; unfold after_close;
           repeat match goal with |- context [if ?b then _ else _] => destruct b
                                | |- context [match last_type ?z with _ => _ end] => destruct (last_type z) end; congruence).
  - apply K_after; cbn; auto.
  - apply K_after; cbn; auto.
  - apply K_value; cbn; auto.
  - apply K_value; cbn; auto.
  - apply K_other; cbn; try discriminate; destruct H2 as [-> |[-> _]]; discriminate.
Qed.

(** ** Lists of nested ranges *)
Definition incl_r (a b : nat * nat) : Prop := fst b <= fst a /\ snd a <= snd b.
Fixpoint nest (l : list (nat * nat)) : Prop :=
  match l with
  | a :: ((b :: _) as r) => incl_r a b /\ nest r
  | _ => True
  end.
(** Nested, all around [o] and between [lo] and [hi], on boundaries of [x]. *)
Record good_list (x : str) (o lo hi : nat) (l : list (nat * nat)) : Prop := {
  gl_nest : nest l;
  gl_in : Forall (fun r => fst r <= o /\ o <= snd r) l;
  gl_bounds : Forall (fun r => lo <= fst r /\ snd r <= hi) l;
  gl_bd : Forall (fun r => Bd x (fst r) /\ Bd x (snd r)) l
}.

Section A.
Variable U : unicode.
Variable x : str.
Variable cs : bool.
Variable rel : nat.
Hypothesis HU : Utf8 x.
Notation scan := (scan U x false cs).

Definition after_name (s : sstate) : Prop := s = AfterAttributeName \/ s = BeforeAttributeValue.

(** The ranges collected so far are behind the scanner. *)
Definition passed (y : scanner) : Prop := rel < pos y \/ (rel = pos y /\ has_space y = false).

Inductive ainv (y : scanner) (s : astate) : Prop :=
| I_none : as_result s = [] -> (as_inside s = true -> 1 <= as_start s <= rel /\ as_start s < pos y /\ Bd x (as_start s)) ->
    ainv y s
| I_name o e : as_result s = [(o, e)] -> as_inside s = true -> as_start s = o -> 1 <= o <= rel -> rel <= e ->
    e <= pos y -> Bd x o -> Bd x e -> after_name (st y) -> (st y = BeforeAttributeValue -> e < pos y) -> passed y -> ainv y s
| I_done : as_result s <> [] -> good_list x rel 1 (pos y) (as_result s) -> passed y ->
    (after_name (st y) -> as_inside s = false) -> ainv y s.

Lemma good_mono o lo hi hi' l : hi <= hi' -> good_list x o lo hi l -> good_list x o lo hi' l.
Proof.
  intros H [A B C D]. split; auto. eapply Forall_impl; [|exact C]. cbn. intros; lia.
Qed.

Lemma attr_step_other sc s : tok sc <> AttributeName -> tok sc <> AttributeValue -> attr_step x rel sc s = Ok s.
Proof. intros H1 H2. unfold attr_step. destruct (tok sc); congruence. Qed.

(** The effect of a value token. *)
Lemma attr_step_value sc s s' : tok sc = AttributeValue -> attr_step x rel sc s = Ok s' ->
  (as_inside s = false /\ s' = s) \/
  (as_inside s = true /\
   ((rel < tok_off sc /\ s' = mkA (as_result s ++ [(as_start s, pos sc)]) true (as_start s)) \/
    (pos sc < rel /\ s' = s) \/
    (tok_off sc <= rel <= pos sc /\
     (s' = mkA (((tok_off sc, pos sc) :: as_result s) ++ [(as_start s, pos sc)]) true (as_start s) \/
      (tok_off sc + 1 <= rel <= pos sc - 1 /\ Bd x (tok_off sc + 1) /\ Bd x (pos sc - 1) /\
       s' = mkA (((tok_off sc + 1, pos sc - 1) :: (tok_off sc, pos sc) :: as_result s) ++ [(as_start s, pos sc)])
                true (as_start s)))))).
Proof.
  intros T H. unfold attr_step in H. rewrite T in H.
  destruct (as_inside s); [right|left; apply Ok_inj in H; auto].
  split; auto. apply bind_ok in H as (v & V & H).
  destruct (rel <? tok_off sc) eqn:E1.
  { left. split; [lia|]. apply Ok_inj in H. auto. }
  destruct (rel <=? pos sc) eqn:E2; [|right; left; split; [lia|apply Ok_inj in H; auto]].
  right; right. split; [lia|]. apply bind_ok in H as (w & _ & H). apply bind_ok in H as (r' & R & H).
  apply Ok_inj in H. subst s'.
  destruct (_ || _) eqn:Q in R.
  - assert (BQ : Bd x (tok_off sc + 1) /\ Bd x (pos sc - 1)).
    { apply slice_ok in V as (V1 & V2 & _ & _ & ->).
      assert (QQ : exists q, (q = DQUOTE \/ q = SQUOTE) /\ first_is q (sub x (tok_off sc) (pos sc)) = true /\
                       last_is q (sub x (tok_off sc) (pos sc)) = true).
      { apply orb_true_iff in Q as [Q|Q]; apply andb_true_iff in Q as [Qa Qb]; eauto. }
      destruct QQ as (q & Q1 & Q2 & Q3).
      assert (QL : (q < 128)%N) by (destruct Q1 as [-> | ->]; reflexivity).
      destruct (sub x (tok_off sc) (pos sc)) as [|v0 v] eqn:E; [discriminate|].
      assert (L : 0 < pos sc - tok_off sc).
      { apply (f_equal (@length N)) in E. rewrite sub_length in E by auto. cbn in E. lia. }
      split.
      - eapply Bd_after_ascii; eauto. rewrite <- (Nat.add_0_r (tok_off sc)).
        rewrite <- (sub_nth_error x (tok_off sc) (pos sc)) by lia. rewrite E. cbn in Q2 |- *. f_equal.
        apply N.eqb_eq. auto.
      - eapply Bd_at_ascii; eauto. unfold last_is in Q3. rewrite <- E in Q3.
        destruct (rev (sub x (tok_off sc) (pos sc))) as [|z w0] eqn:RV; [discriminate|]. cbn in Q3.
        apply N.eqb_eq in Q3. subst z.
        assert (EV : sub x (tok_off sc) (pos sc) = rev w0 ++ [q]) by (rewrite <- (rev_involutive (sub _ _ _)), RV; auto).
        pose proof (f_equal (@length N) EV) as L2. rewrite sub_length, app_length in L2 by auto. cbn in L2.
        replace (pos sc - 1) with (tok_off sc + length (rev w0)) by lia.
        rewrite <- (sub_nth_error x (tok_off sc) (pos sc)) by lia. rewrite EV, nth_error_app2, Nat.sub_diag by lia. auto. }
    apply bind_ok in R as (e1 & R1 & R). unfold usub in R1. destruct (1 <=? pos sc) eqn:E3; [|discriminate].
    apply Ok_inj in R1. subst e1. apply Ok_inj in R. subst r'.
    destruct ((tok_off sc + 1 <=? rel) && (rel <=? pos sc - 1)) eqn:E4; auto. right. split; [lia|]. tauto.
  - apply Ok_inj in R. subst r'. auto.
Qed.

Lemma attr_bd y y' : scan y = Ok y' -> tok y' = AttributeName \/ tok y' = AttributeValue ->
  Bd x (pos y) /\ Bd x (pos y').
Proof.
  intros S T. apply scan_outcome in S; auto.
  assert (RUN : forall f p, is_boundary x p = true -> p <= length x -> Bd x p /\ Bd x (p + char_run f (skipn p x))).
  { intros f p B L. assert (Bd x p) by (apply boundary_Bd; auto). split; auto. apply Bd_char_run; auto. }
  inversion S; subst; cbn [tok finish pos] in *; try (destruct T; discriminate).
  - match goal with T' : tag_outcome _ _ _ _ ?a _, E : enter_tag _ _ ?a |- _ =>
      pose proof (enter_tag_pos _ _ _ E) as PE; inversion T'; subst; cbn [tok finish pos] in *;
      try (destruct T; discriminate) end.
    match goal with A : attr_name _ _ _ |- _ => destruct A as (A1 & A2 & A3 & A4) end.
    destruct (RUN attr_char _ A3 ltac:(lia)) as [B1 B2]. rewrite A4 in B2. rewrite <- PE. split; auto.
    match goal with |- Bd x ?e => replace e with (pos sc1 + (e - pos sc1)) by lia end. auto.
  - match goal with A : plain_value _ _ _ |- _ => destruct A as (A1 & A2 & A3 & n & A4 & A5 & A6) end.
    destruct (RUN val_char _ A3 ltac:(lia)) as [B1 B2]. rewrite A5 in B2. split; auto.
    destruct A6 as [[-> A6]|[-> _]]; auto.
    destruct A6 as [A6|A6]; eapply Bd_after_ascii; eauto; reflexivity.
  - match goal with A : quoted_value _ _ _ |- _ => destruct A as (q & A1 & A2 & A3 & A4 & _ & A5) end.
    assert (QL : (q < 128)%N) by (destruct A1 as [-> | ->]; reflexivity).
    split; [eapply Bd_at_ascii; eauto|]. destruct A5 as [[A5 A6]|[-> _]]; [|apply Bd_len; auto].
    replace e with (e - 1 + 1) by lia. eapply Bd_after_ascii; eauto.
Qed.

Lemma ainv_step y y' s s' : 1 <= pos y -> ainv y s -> scan y = Ok y' -> tok y' <> EOS ->
  attr_step x rel y' s = Ok s' -> ainv y' s'.
Proof.
  intros P1 I S NE A. destruct (step_kind _ _ _ _ _ HU S NE) as (P & _ & O & K).
  pose proof (attr_bd _ _ S) as AB.
  assert (PA : passed y -> passed y') by (unfold passed; intros [?|[? _]]; left; lia).
  destruct K as [T Hs Hs' St|T Sy Hs' St|T Sy St|T1 T2 S1 S2].
  - (* name *)
    destruct (AB (or_introl T)) as [AB1 AB2].
    unfold attr_step in A. rewrite T, O in A.
    destruct (rel <? pos y) eqn:E.
    + apply Ok_inj in A. subst s'. destruct I as [R In|o e R In St1 L1 L2 L3 B1 B2 AN BV PS|R G PS AN].
      * apply I_none; cbn; auto. discriminate.
      * apply I_done; cbn; auto; [rewrite R; discriminate|].
        rewrite R. split; [exact Logic.I| | |]; repeat constructor; cbn; auto; lia.
      * apply I_done; cbn; auto. eapply good_mono; [|exact G]. lia.
    + assert (R : as_result s = []).
      { destruct I as [R In|o e R In St1 L1 L2 L3 B1 B2 AN BV PS|R G PS AN]; auto;
        exfalso; destruct PS as [?|[_ ?]]; (lia || congruence). }
      apply Ok_inj in A. subst s'. rewrite R. destruct (rel <=? pos y') eqn:E2.
      * apply I_name with (o := pos y) (e := pos y'); cbn; auto; try lia.
        -- left; auto.
        -- congruence.
        -- unfold passed. lia.
      * apply I_none; cbn; auto. intros _. split; [lia|]. split; [lia|auto].
  - (* value *)
    destruct (AB (or_intror T)) as [AB1 AB2].
    apply attr_step_value in A; auto. rewrite O in A.
    destruct A as [[A1 ->]|[A1 A2]].
    + destruct I as [R In|o e R In St1 L1 L2 L3 B1 B2 AN BV PS|R G PS AN].
      * apply I_none; auto. congruence.
      * congruence.
      * apply I_done; auto. eapply good_mono; [|exact G]. lia.
    + destruct I as [R In|o e R In St1 L1 L2 L3 B1 B2 AN BV PS|R G PS AN].
      * destruct (In A1) as (In1 & In2 & In3). rewrite R in A2. cbn [app] in A2.
        destruct A2 as [[A2 ->]|[[A2 ->]|[A2 [-> |(A3 & A4 & A5 & ->)]]]].
        -- apply I_done; cbn; auto; try discriminate.
           ++ split; [exact Logic.I| | |]; repeat constructor; cbn; auto; lia.
           ++ left. lia.
           ++ unfold after_name. rewrite St. intros [|]; discriminate.
        -- apply I_none; auto. intros _. split; [lia|]. split; [lia|auto].
        -- apply I_done; cbn; auto; try discriminate.
           ++ split; repeat constructor; cbn; auto; try lia.
           ++ unfold passed. lia.
           ++ unfold after_name. rewrite St. intros [|]; discriminate.
        -- apply I_done; cbn; auto; try discriminate.
           ++ split; repeat constructor; cbn; auto; try lia.
           ++ unfold passed. lia.
           ++ unfold after_name. rewrite St. intros [|]; discriminate.
      * specialize (BV Sy). rewrite R in A2. cbn [app] in A2.
        destruct A2 as [[A2 ->]|[[A2 ->]|[A2 _]]]; [|lia|lia].
        apply I_done; cbn; auto; try discriminate.
        -- split; repeat constructor; cbn; rewrite ?St1; auto; try lia.
        -- unfold after_name. rewrite St. intros [|]; discriminate.
      * exfalso. rewrite AN in A1; [discriminate|]. right. auto.
  - rewrite attr_step_other in A by (destruct T as [T|T]; rewrite T; discriminate). apply Ok_inj in A. subst s'.
    destruct I as [R In|o e R In St1 L1 L2 L3 B1 B2 AN BV PS|R G PS AN].
    + apply I_none; auto. intros Q. specialize (In Q). intuition lia.
    + apply I_name with (o := o) (e := e); auto; lia.
    + apply I_done; auto; [eapply good_mono; [|exact G]; lia|]. intros _. apply AN. left. auto.
  - rewrite attr_step_other in A by auto. apply Ok_inj in A. subst s'.
    destruct I as [R In|o e R In St1 L1 L2 L3 B1 B2 AN BV PS|R G PS AN].
    + apply I_none; auto. intros Q. specialize (In Q). intuition lia.
    + apply I_done; auto.
      * rewrite R; discriminate.
      * rewrite R. split; [exact Logic.I| | |]; repeat constructor; cbn; auto; lia.
      * intros [|]; congruence.
    + apply I_done; auto; [eapply good_mono; [|exact G]; lia|]. intros [|]; congruence.
Qed.

(** ** What the loop adds *)
Lemma attr_step_keeps y s s' : attr_step x rel y s = Ok s' -> incl (as_result s) (as_result s').
Proof.
  intros A r I. destruct (token_eqb (tok y) AttributeName) eqn:T1.
  - apply token_eqb_eq in T1. unfold attr_step in A. rewrite T1 in A.
    destruct (rel <? tok_off y); apply Ok_inj in A; subst s'; auto. cbn. destruct (rel <=? pos y); auto. right. auto.
  - apply token_eqb_neq in T1. destruct (token_eqb (tok y) AttributeValue) eqn:T2.
    + apply token_eqb_eq in T2. apply attr_step_value in A; auto.
      destruct A as [[_ ->]|[_ [[_ ->]|[[_ ->]|[_ [-> |(_ & _ & _ & ->)]]]]]]; auto; cbn; rewrite ?in_app_iff; auto.
    + apply token_eqb_neq in T2. rewrite attr_step_other in A by auto. apply Ok_inj in A. subst s'. auto.
Qed.
Lemma attr_loop_keeps fuel : forall y s r, attr_loop U x cs rel fuel y s = Ok r -> incl (as_result s) r.
Proof.
  induction fuel as [|fuel IH]; intros y s r H; [discriminate|]. cbn [attr_loop] in H.
  apply bind_ok in H as (y' & S & H). destruct (token_eqb (tok y') EOS); [apply Ok_inj in H; subst r; apply incl_refl|].
  apply bind_ok in H as (s' & A & H). apply IH in H. eapply incl_tran; [|exact H]. eapply attr_step_keeps; eauto.
Qed.
(** A name seen before the cursor leaves the loop inside its attribute. *)
Definition in_attr (y : scanner) (s : astate) : Prop :=
  after_name (st y) -> pos y <= rel -> as_inside s = true.
Lemma in_attr_step y y' s s' : in_attr y s -> scan y = Ok y' -> tok y' <> EOS ->
  attr_step x rel y' s = Ok s' -> in_attr y' s'.
Proof.
  intros I S NE A AN L. destruct (step_kind _ _ _ _ _ HU S NE) as (P & _ & O & K).
  destruct K as [T Hs Hs' St|T Sy Hs' St|T Sy St|T1 T2 S1 S2].
  - unfold attr_step in A. rewrite T, O in A. replace (rel <? pos y) with false in A by lia.
    apply Ok_inj in A. subst s'. auto.
  - unfold after_name in AN. rewrite St in AN. destruct AN; discriminate.
  - rewrite attr_step_other in A by (destruct T as [T|T]; rewrite T; discriminate). apply Ok_inj in A. subst s'.
    apply I; [left; auto|lia].
  - unfold after_name in AN. tauto.
Qed.
Definition quoted (v : str) : Prop :=
  first_is DQUOTE v = true /\ last_is DQUOTE v = true \/ first_is SQUOTE v = true /\ last_is SQUOTE v = true.
(** The token's range, and for a quoted value the range without the quotes. *)
Definition wanted (y : scanner) (r : nat * nat) : Prop :=
  tok_off y <= rel <= pos y /\
  ((tok y = AttributeName \/ tok y = AttributeValue) /\ r = (tok_off y, pos y) \/
   tok y = AttributeValue /\ quoted (sub x (tok_off y) (pos y)) /\ tok_off y + 1 <= rel <= pos y - 1 /\
   r = (tok_off y + 1, pos y - 1)).
Lemma attr_loop_has m : forall fuel y s c r l f, in_attr y s -> runs U x false cs y (m ++ c :: l) f ->
  attr_loop U x cs rel fuel y s = Ok r -> forall w, wanted c w -> In w r.
Proof.
  induction m as [|y1 m IH]; intros fuel y s c r l f I R H w W; (destruct fuel as [|fuel]; [discriminate|]);
    cbn [app] in R; apply runs_inv in R as (R1 & R2 & R3); cbn [attr_loop] in H; rewrite R1 in H; cbn [bind] in H;
    rewrite (proj2 (token_eqb_neq _ _) R2) in H; apply bind_ok in H as (s' & A & H).
  - apply attr_loop_keeps in H. apply H. 
    destruct (step_kind _ _ _ _ _ HU R1 R2) as (P & _ & O & K).
    assert (IS : tok c = AttributeValue -> tok_off c <= rel -> as_inside s = true).
    { intros W2 L. apply I; [|lia]. destruct K as [T _ _ _|T Sy _ _|[T|T] _ _|T1 T2 _ _]; try congruence. right. auto. }
    destruct W as (W1 & [[W2 ->]|(W2 & W3 & W4 & ->)]).
    2:{ unfold attr_step in A. rewrite W2, IS in A by (auto; lia). apply bind_ok in A as (v & V & A).
        apply slice_ok in V as (_ & _ & _ & _ & ->).
        replace (rel <? tok_off c) with false in A by lia. replace (rel <=? pos c) with true in A by lia.
        apply bind_ok in A as (u & _ & A). apply bind_ok in A as (r' & R' & A). apply Ok_inj in A. subst s'.
        match type of R' with (if ?b then _ else _) = _ => replace b with true in R' end.
        - apply bind_ok in R' as (e1 & E1 & R'). unfold usub in E1. destruct (1 <=? pos c); [|discriminate].
          apply Ok_inj in E1. apply Ok_inj in R'. subst e1 r'.
          replace ((tok_off c + 1 <=? rel) && (rel <=? pos c - 1)) with true by lia. cbn. auto.
        - symmetry. destruct W3 as [[Q1 Q2]|[Q1 Q2]]; rewrite Q1, Q2; auto. apply orb_true_r. }
    destruct W2 as [W2|W2].
    + unfold attr_step in A. rewrite W2 in A. replace (rel <? tok_off c) with false in A by lia.
      apply Ok_inj in A. subst s'. cbn. replace (rel <=? pos c) with true by lia. left. auto.
    + apply attr_step_value in A; auto. rewrite IS in A by (auto; lia). destruct A as [[? _]|[_ [[? _]|[[? _]|[_ [-> |(_ & _ & _ & ->)]]]]]]; try discriminate; try lia; cbn; auto.
  - apply (IH fuel y1 s' c r l f); auto. eapply in_attr_step; eauto.
Qed.

Lemma ainv_result y s : ainv y s -> good_list x rel 1 (pos y) (as_result s).
Proof.
  intros [R In|o e R In St1 L1 L2 L3 B1 B2 AN BV PS|R G PS AN]; auto; rewrite R.
  - split; [exact Logic.I| | |]; constructor.
  - split; [exact Logic.I| | |]; repeat constructor; cbn; auto; lia.
Qed.

(** After the tag nothing is added. *)
Lemma attr_loop_after fuel : forall y s r, rel < pos y -> (after_name (st y) -> as_inside s = false) ->
  attr_loop U x cs rel fuel y s = Ok r -> r = as_result s.
Proof.
  induction fuel as [|fuel IH]; intros y s r L AN H; [discriminate|].
  cbn [attr_loop] in H. apply bind_ok in H as (y' & S & H).
  destruct (token_eqb (tok y') EOS) eqn:E; [apply Ok_inj in H; auto|].
  apply token_eqb_neq in E. apply bind_ok in H as (s' & A & H).
  destruct (step_kind _ _ _ _ _ HU S E) as (P & _ & O & K).
  destruct K as [T Hs Hs' St|T Sy Hs' St|T Sy St|T1 T2 S1 S2].
  - unfold attr_step in A. rewrite T, O in A. replace (rel <? pos y) with true in A by lia.
    apply Ok_inj in A. subst s'. apply IH in H; auto. lia.
  - apply attr_step_value in A; auto. rewrite AN in A by (right; auto).
    destruct A as [[_ ->]|[? _]]; [|discriminate]. apply IH in H; auto; [lia|].
    unfold after_name. rewrite St. intros [|]; discriminate.
  - rewrite attr_step_other in A by (destruct T as [T|T]; rewrite T; discriminate). apply Ok_inj in A. subst s'.
    apply IH in H; auto; [lia|]. intros _. apply AN. left; auto.
  - rewrite attr_step_other in A by auto. apply Ok_inj in A. subst s'.
    apply IH in H; auto; [lia|]. intros [|]; congruence.
Qed.

(** The loop over a start tag: [m] its tokens, [c] the one that closes it. *)
Lemma attr_loop_tag m : forall fuel y s c r, 1 <= pos y -> ainv y s ->
  runs U x false cs y (m ++ [c]) c -> tok c = StartTagClose \/ tok c = StartTagSelfClose -> rel < pos c ->
  attr_loop U x cs rel fuel y s = Ok r -> good_list x rel 1 (tok_off c) r.
Proof.
  induction m as [|y1 m IH]; intros fuel y s c r P I R T L H; (destruct fuel as [|fuel]; [discriminate|]);
    cbn [app] in R; inv R; cbn [attr_loop] in H.
  - rewrite H2 in H. cbn [bind] in H. rewrite (proj2 (token_eqb_neq _ _) H4) in H.
    rewrite attr_step_other in H by (destruct T as [T|T]; rewrite T; discriminate). cbn [bind] in H.
    destruct (step_kind _ _ _ _ _ HU H2 H4) as (P' & _ & O & K).
    apply attr_loop_after in H; auto.
    + subst r. rewrite O. apply ainv_result; auto.
    + destruct K as [T' _ _ _|T' _ _ _|T' _ _|_ _ S1 S2]; try (destruct T; congruence).
      * destruct T, T'; congruence.
      * intros [|]; congruence.
  - rewrite H2 in H. cbn [bind] in H. rewrite (proj2 (token_eqb_neq _ _) H4) in H.
    apply bind_ok in H as (s' & A & H). eapply IH with (y := y1); eauto.
    + destruct (step_kind _ _ _ _ _ HU H2 H4) as (P' & _). lia.
    + eapply ainv_step; eauto.
Qed.
End A.

Lemma advance_err U t emit cs sc sc' : outcome U t emit cs sc sc' -> pos sc < pos sc' ->
  tok_err sc' <> Some ErrClosingBracketMissing.
Proof.
  intros H L Q. inversion H; subst; cbn in L, Q; try discriminate; try lia.
  match goal with T : tag_outcome _ _ _ _ ?a _, E : enter_tag _ _ ?a |- _ =>
    pose proof (enter_tag_pos _ _ _ E); inversion T; subst; cbn in L, Q; try discriminate; lia end.
Qed.

(** ** The start tag seen in the node's own text *)
Section L.
Variable U : unicode.
Variable t : str.
Variable cs : bool.
Variables a b : nat.
Hypothesis HA : Bd t a.
Hypothesis HB : Bd t b.
Hypothesis Hab : a <= b.
Notation x := (sub t a b).
Notation sh := (sh a).

Lemma sh_pos y : pos (sh y) = a + pos y.
Proof. reflexivity. Qed.

Lemma local_runs m : forall y c f, in_tag (st y) = true ->
  runs U t true cs (sh y) (m ++ [c]) f -> Forall (fun z => in_tag (st z) = true) m ->
  in_tag (st c) = false -> tok_off c < pos c -> pos c <= b ->
  exists m' c', runs U x false cs y (m' ++ [c']) c' /\ c = sh c' /\ m = map sh m'.
Proof.
  pose proof (HU_ t a HA) as HU. pose proof (HUx t a b HA HB Hab) as HUX.
  pose proof (Bd_le _ _ HB) as LB. pose proof (len_x t a b HB Hab) as LX.
  assert (STEP : forall y sc', in_tag (st y) = true -> scan U t true cs (sh y) = Ok sc' ->
     tok sc' <> EOS -> short b sc' -> (tok_off sc' < pos sc' \/ in_tag (st sc') = true) ->
     exists y', scan U x false cs y = Ok y' /\ sc' = sh y' /\ tok y' <> EOS).
  { intros y sc' It S NE SH TO.
    pose proof (scan_outcome _ _ _ _ HU _ _ S) as O.
    pose proof (outcome_progress _ _ _ _ _ _ O) as (Q1 & Q2).
    assert (L : pos y < b - a).
    { destruct SH as (_ & SP). cbn [ScanLocal.sh pos] in *.
      destruct Q2 as [(? & _)|[(_ & Q2 & _)|(_ & _ & Q2 & _ & Q3 & _)]]; [congruence| |].
      - destruct SP as [|[_ ?]]; lia.
      - destruct TO as [TO|TO]; [rewrite Q1 in TO; lia|rewrite Q3 in TO; discriminate]. }
    assert (BS : is_boundary t (a + pos y) = true \/ st y <> AfterOpeningStartTag).
    { destruct (sstate_eq_dec (st y) AfterOpeningStartTag) as [E|E]; auto. left.
      rewrite scan_internal in S by auto. unfold internal_scan in S.
      change (st (sh y)) with (st y) in S. rewrite E in S. unfold scan_after_opening_start_tag in S.
      apply eos_or_ok in S as [[Q _]|[_ S]]; [cbn in Q; lia|].
      apply bind_ok in S as (r & R & _). unfold next_element_name, name_of, adv_if_regexp in R.
      apply bind_ok in R as (r' & R & _). apply bind_ok in R as (r2 & R & _).
      apply slice_ok in R. apply R. }
    destruct (local_step U t cs a b HA HB Hab y sc' It BS O L SH) as (y' & Y1 & Y2).
    exists y'. assert (NE' : tok y' <> EOS) by (subst sc'; exact NE).
    split; [|auto]. apply outcome_scan; auto.
    - destruct (sstate_eq_dec (st y) AfterOpeningStartTag) as [E|E].
      + left. apply boundary_Bd; auto; [lia|]. apply bd_x; auto. destruct BS; [auto|congruence].
      + right. unfold in_tag_state. destruct (st y); try discriminate; auto; congruence.
    - intros Q. inversion Y1; subst; cbn in Q; try discriminate.
      + inversion H0; subst; inversion H1; subst; discriminate.
      + rewrite H in It. discriminate. }
  induction m as [|z m IH]; intros y c f It R F Ic TO L; cbn [app] in R;
    apply runs_inv in R as (H2 & H4 & H6).
  - destruct (STEP y c It H2 H4) as (y' & Y1 & Y2 & Y3); auto.
    { split; [|auto]. apply scan_outcome in H2; auto. eapply advance_err; eauto.
      apply outcome_progress in H2 as (Q1 & _). lia. }
    exists [], y'. split; [|auto]. cbn [app]. constructor; auto. constructor.
  - assert (H1 : in_tag (st z) = true) by (inversion F; auto).
    assert (F' : Forall (fun z => in_tag (st z) = true) m) by (inversion F; auto).
    assert (R' := H6). apply runs_app in H6 as (g & G1 & G2). apply runs_pos in G1; auto.
    apply runs_inv in G2 as (H6 & H7 & H8). apply scan_outcome in H6 as O; auto. apply outcome_progress in O as (Q1 & _).
    destruct (STEP y z It H2 H4) as (y' & Y1 & Y2 & Y3); auto.
    { split; [|left; lia]. apply scan_outcome in H2; auto. intros Q.
      pose proof (outcome_progress _ _ _ _ _ _ H2) as (Q3 & [(? & _)|[(_ & Q2 & _)|(_ & _ & Q2 & _ & Q4 & _)]]).
      - congruence.
      - eapply advance_err; eauto.
      - rewrite Q4 in H1. discriminate. }
    subst z. destruct (IH y' c f H1) as (m' & c' & R1 & R2 & R3); auto.
    exists (y' :: m'), c'. split; [cbn [app]; constructor; auto|]. split; auto. cbn [map]. congruence.
Qed.
End L.
