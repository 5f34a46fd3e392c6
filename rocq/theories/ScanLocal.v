(** * Scanning a part of a text: inside a start tag the scanner does the same on
    the text and on a piece of it that contains the tag. *)
From Verif Require Import Base Stream Scanner BaseFacts ScannerFacts ScanStep ScanProps ScanShape ScanResume
  ScanComplete ParseSpec.
From Coq Require Import ZifyBool ZifyNat ZifyN.

Lemma sub_sub (t : str) a b p q : a + q <= b -> sub (sub t a b) p q = sub t (a + p) (a + q).
Proof.
  intros H. unfold sub. rewrite skipn_firstn_comm, firstn_firstn, skipn_skipn.
  f_equal; [lia|]. f_equal. lia.
Qed.
Lemma skipn_sub_eq (t : str) a b p : skipn p (sub t a b) = sub t (a + p) b.
Proof. unfold sub. rewrite skipn_firstn_comm, skipn_skipn. f_equal; [lia|]. f_equal. lia. Qed.

Lemma Bd_sub t a b : Bd t a -> Bd t b -> a <= b -> Utf8 (sub t a b).
Proof.
  intros (c1 & c2 & S1 & S2 & E1 & L1) HB Hab.
  assert (Bd (encode c2) (b - a)).
  { apply boundary_Bd.
    - exists c2. auto.
    - apply Bd_le in HB. rewrite E1, app_length in HB. lia.
    - apply Bd_boundary in HB. unfold is_boundary in *.
      destruct (b - a =? 0) eqn:Z; auto. rewrite E1, app_length, nth_error_app2 in HB by lia.
      replace (b =? 0) with false in HB by lia.
      destruct (b =? length (encode c1) + length (encode c2)) eqn:Q.
      + replace (b - a =? length (encode c2)) with true by lia. auto.
      + rewrite <- L1 in HB. simpl in HB. rewrite HB. apply orb_true_r. }
  destruct H as (d1 & d2 & D1 & D2 & E2 & L2). exists d1. split; auto.
  unfold sub. rewrite E1, L1, skipn_app, Nat.sub_diag, skipn_all. cbn [app skipn].
  rewrite <- L1, L2, E2. rewrite firstn_app, Nat.sub_diag, firstn_all. cbn [firstn]. apply app_nil_r.
Qed.

Lemma take_while_app_part f c1 c2 :
  length (encode (take_while f (c1 ++ c2))) < length (encode c1) ->
  take_while f (c1 ++ c2) = take_while f c1.
Proof.
  induction c1 as [|c c1 IH]; intros H; [simpl in H; lia|]. cbn [app take_while] in *.
  destruct (f c); auto. f_equal. apply IH. rewrite !encode_cons, !app_length in H. lia.
Qed.

Lemma char_run_part f (s x r : str) : s = x ++ r -> Utf8 x -> Utf8 r ->
  char_run f s < length x -> char_run f x = char_run f s.
Proof.
  intros -> (c1 & S1 & ->) (c2 & S2 & ->) H.
  assert (S : forallb scalar (c1 ++ c2) = true) by (rewrite forallb_app, S1, S2; auto).
  rewrite <- encode_app, char_run_encode in * by auto. rewrite char_run_encode by auto.
  rewrite take_while_app_part; auto.
Qed.

Lemma elem_part U (s x r : str) : s = x ++ r -> Utf8 x -> Utf8 r -> x <> [] ->
  (forall n, m_element_name U s = Some (0, n) -> n < length x -> m_element_name U x = Some (0, n)) /\
  (m_element_name U s = None -> m_element_name U x = None).
Proof.
  intros -> (c1 & S1 & ->) (c2 & S2 & ->) Hx.
  destruct c1 as [|c c1]; [simpl in Hx; congruence|].
  rewrite encode_cons in *. cbn [forallb] in S1. apply andb_true_iff in S1 as [Sc S1].
  unfold m_element_name. rewrite <- app_assoc.
  assert (S : forallb scalar (c :: c1 ++ c2) = true) by (cbn [forallb]; rewrite forallb_app, Sc, S1, S2; auto).
  assert (S' : forallb scalar (c :: c1) = true) by (cbn [forallb]; rewrite Sc, S1; auto).
  pose proof (decode1_encode c (c1 ++ c2) Sc) as D.
  pose proof (decode1_encode c c1 Sc) as D'.
  rewrite ?encode_cons, encode_app in D. rewrite ?encode_cons in D'. rewrite D, D'.
  rewrite !skipn_app, !skipn_all, !Nat.sub_diag. cbn [skipn app].
  destruct (name_start_char U c); [|split; auto; discriminate].
  split; [|discriminate]. intros n H L. inv H. do 2 f_equal. f_equal.
  apply char_run_part with (r := encode c2); auto.
  - exists c1. auto.
  - exists c2. auto.
  - rewrite app_length in L. lia.
Qed.

Section L.
Variable U : unicode.
Variable t : str.
Variable cs : bool.
Variables a b : nat.
Hypothesis HA : Bd t a.
Hypothesis HB : Bd t b.
Hypothesis Hab : a <= b.
Notation x := (sub t a b).

Lemma HU_ : Utf8 t.
Proof. eapply Bd_utf8; eauto. Qed.
Lemma HUx : Utf8 x.
Proof. apply Bd_sub; auto. Qed.
Lemma len_x : length x = b - a.
Proof. apply sub_length; auto. apply Bd_le; auto. Qed.

Lemma nth_x p : p < b - a -> nth_error x p = nth_error t (a + p).
Proof. intros H. apply sub_nth_error. lia. Qed.
Lemma nth_x_some p c : nth_error x p = Some c -> nth_error t (a + p) = Some c.
Proof.
  intros H. pose proof (nth_error_lt _ _ _ H) as L. rewrite len_x in L. rewrite nth_x in H by auto. auto.
Qed.
Lemma skipn_x p : skipn (a + p) t = skipn p x ++ skipn b t \/ b < a + p.
Proof.
  destruct (Nat.le_gt_cases (a + p) b); auto. left. rewrite skipn_sub_eq. apply skipn_sub. auto.
Qed.
Lemma bd_x p : p < b - a -> is_boundary t (a + p) = true -> is_boundary x p = true.
Proof.
  intros L H. unfold is_boundary in *. rewrite nth_x by auto.
  destruct (p =? 0) eqn:E; auto. pose proof (Bd_le _ _ HB).
  replace (a + p =? 0) with false in H by lia. replace (a + p =? length t) with false in H by lia.
  simpl in H. rewrite H. apply orb_true_r.
Qed.
Lemma bd_utf8 p : p < b - a -> is_boundary t (a + p) = true -> Utf8 (skipn p x).
Proof.
  intros L H. apply Bd_skipn_utf8. apply boundary_Bd; auto using HUx, bd_x. rewrite len_x. lia.
Qed.
Lemma run_x f p : p < b - a -> is_boundary t (a + p) = true ->
  a + p + char_run f (skipn (a + p) t) < b -> char_run f (skipn p x) = char_run f (skipn (a + p) t).
Proof.
  intros L H R. apply char_run_part with (r := skipn b t).
  - destruct (skipn_x p); auto. lia.
  - apply bd_utf8; auto.
  - apply Bd_skipn_utf8; auto.
  - rewrite skipn_length, len_x. lia.
Qed.
Lemma elem_x p e : elem_name U t (a + p) (a + e) -> a + e < b -> elem_name U x p e.
Proof.
  intros (H1 & H2 & H3 & H4) L. split; [lia|]. rewrite len_x. split; [lia|]. split; [apply bd_x; auto; lia|].
  destruct (elem_part U (skipn (a + p) t) (skipn p x) (skipn b t)) as [K _].
  - destruct (skipn_x p); auto. lia.
  - apply bd_utf8; auto. lia.
  - apply Bd_skipn_utf8; auto.
  - intros Q. apply skipn_all_iff in Q. rewrite len_x in Q. lia.
  - apply K; [rewrite H4; do 2 f_equal; lia|]. rewrite skipn_length, len_x. lia.
Qed.
Lemma no_elem_x p : p < b - a -> is_boundary t (a + p) = true ->
  m_element_name U (skipn (a + p) t) = None -> m_element_name U (skipn p x) = None.
Proof.
  intros L H3. destruct (elem_part U (skipn (a + p) t) (skipn p x) (skipn b t)) as [_ K]; auto.
  - destruct (skipn_x p); auto. lia.
  - apply bd_utf8; auto.
  - apply Bd_skipn_utf8; auto.
  - intros Q. apply skipn_all_iff in Q. rewrite len_x in Q. lia.
Qed.
Lemma ws_x p e : skip_ws t (a + p) = Some (a + e) -> a + e < b -> skip_ws x p = Some e.
Proof.
  intros H L. apply skip_ws_some in H as (A1 & A2 & A3 & A4).
  destruct (skip_ws x p) as [e'|] eqn:E.
  - apply skip_ws_some in E as (B1 & B2 & B3 & B4). rewrite len_x in B2. f_equal.
    destruct (Nat.lt_trichotomy e e') as [Q|[Q|Q]]; auto; exfalso.
    + destruct (B3 e) as (c & C1 & C2); [lia|lia|]. apply nth_x_some in C1.
      specialize (A4 _ C1). congruence.
    + destruct (A3 (a + e')) as (c & C1 & C2); [lia|lia|]. rewrite <- nth_x in C1 by lia.
      specialize (B4 _ C1). congruence.
  - exfalso. destruct (A3 (a + p)) as (c & C1 & C2); [lia|lia|]. rewrite <- nth_x in C1 by lia.
    pose proof (skip_ws_none _ _ E _ C1). congruence.
Qed.
Lemma no_ws_x p : skip_ws t (a + p) = None -> skip_ws x p = None.
Proof.
  intros H. destruct (skip_ws x p) as [e|] eqn:E; auto. exfalso.
  apply skip_ws_some in E as (B1 & B2 & B3 & B4). destruct (B3 p) as (c & C1 & C2); [lia|lia|].
  apply nth_x_some in C1. pose proof (skip_ws_none _ _ H _ C1). congruence.
Qed.
Lemma prefix_x w p : a + p + length w <= b ->
  is_prefix w (skipn p x) = is_prefix w (skipn (a + p) t).
Proof.
  intros L. destruct (skipn_x p) as [-> |]; [|lia].
  assert (L' : length w <= length (skipn p x)) by (rewrite skipn_length, len_x; lia).
  revert L'. generalize (skipn p x). clear. induction w as [|c w IH]; intros s L; auto.
  destruct s as [|d s]; [simpl in L; lia|]. cbn [is_prefix app]. rewrite IH; auto. simpl in L. lia.
Qed.
Lemma no_prefix_x w p : w <> [] -> is_prefix w (skipn (a + p) t) = false -> is_prefix w (skipn p x) = false.
Proof.
  intros Hw H. destruct (is_prefix w (skipn p x)) eqn:E; auto. exfalso.
  pose proof (is_prefix_skipn_length _ _ _ E Hw) as L. rewrite len_x in L.
  rewrite prefix_x in E by lia. congruence.
Qed.
Lemma peek_x p c : p < b - a -> peek_is x p c = peek_is t (a + p) c.
Proof.
  intros L. destruct (peek_is t (a + p) c) eqn:E.
  - apply peek_is_true in E. apply peek_is_true. rewrite nth_x; auto.
  - apply peek_is_false in E. apply peek_is_false. rewrite nth_x; auto.
Qed.
Lemma first_byte_x p c e : first_byte t (a + p) c (a + e) -> a + e < b -> first_byte x p c e.
Proof.
  intros (A1 & A2 & A3 & A4) L. pose proof (Bd_le _ _ HB). split; [lia|]. rewrite len_x. split; [lia|]. split.
  - intros i I1 I2. rewrite nth_x by lia. apply A3; lia.
  - right. rewrite nth_x by lia. destruct A4; auto. lia.
Qed.

(** The scanner on the text, seen from the piece. *)
Definition sh (y : scanner) : scanner :=
  mkScanner (st y) (tok y) (a + tok_off y) (tok_err y) (a + pos y) (has_space y)
            (last_tag y) (last_attr y) (last_type y).

Lemma sh_no_attr y : pos y < b - a -> no_attr t (sh y) = sh (no_attr x y).
Proof.
  intros L. unfold no_attr. cbn [pos has_space sh]. rewrite <- peek_x by auto.
  destruct (has_space y), (peek_is x (pos y) EQ); auto.
Qed.

Lemma finish_sh y o tk er p s : finish (sh y) (a + o) tk er (a + p) s = sh (finish y o tk er p s).
Proof. reflexivity. Qed.

Definition short (sc' : scanner) : Prop :=
  tok_err sc' <> Some ErrClosingBracketMissing /\
  (pos sc' < b \/ (in_tag (st sc') = false /\ pos sc' <= b)).

Lemma local_tag y sc' : in_start_tag (st y) = true ->
  tag_outcome U t true cs (sh y) sc' -> pos y < b - a -> short sc' ->
  exists y', tag_outcome U x false cs y y' /\ sc' = sh y'.
Proof.
  intros Sy H L (NE & SP). pose proof (Bd_le _ _ HB) as LB.
  assert (It : in_tag (st y) = true) by (destruct (st y); auto).
  inversion H as [e H0 HE|e H0 H1 H2 HE|H0 HE|H0 HE|H0 H1 HE|H0 H1 H2 H3 H4 HE]; subst sc'; cbn [pos sh] in *.
  - pose proof (skip_ws_some _ _ _ H0) as (A1 & A2 & _). cbn [pos finish st] in SP.
    assert (a + (e - a) < b) by (destruct SP as [|[SP ?]]; [lia|cbn [sh st] in SP; congruence]).
    assert (Ev : e = a + (e - a)) by lia.
    eexists. split; [apply TO_ws with (e := e - a); apply ws_x; [rewrite <- Ev; auto|lia]|].
    unfold sh, finish. cbn. f_equal; auto.
  - pose proof H2 as (A1 & A2 & A3 & A4). cbn [pos finish st] in SP.
    assert (a + (e - a) < b) by (destruct SP as [|[SP ?]]; [lia|discriminate]).
    assert (Ev : e = a + (e - a)) by lia.
    eexists. split.
    + apply TO_attr with (e := e - a); [exact H0|apply no_ws_x; auto|].
      split; [lia|]. rewrite len_x. split; [lia|]. split; [apply bd_x; auto|].
      rewrite run_x; auto; lia.
    + rewrite (sub_sub t a b) by lia. rewrite <- Ev. unfold sh, finish. cbn. f_equal; auto.
  - cbn [pos finish] in SP. rewrite sh_no_attr by auto.
    eexists. split; [apply TO_self_close|].
    + rewrite prefix_x; auto. change (length (bs "/>")) with 2. destruct SP as [|[_ ?]]; lia.
    + unfold sh, finish. cbn. f_equal; auto; lia.
  - rewrite sh_no_attr by auto. eexists. split; [apply TO_close|].
    + rewrite nth_x; auto.
    + unfold sh, finish. cbn. f_equal; auto; lia.
  - exfalso. apply NE. reflexivity.
  - rewrite sh_no_attr by auto. eexists. split; [apply TO_unknown|].
    + discriminate.
    + rewrite nth_x; auto.
    + apply no_prefix_x; auto. discriminate.
    + apply no_ws_x; auto.
    + intros Hs. destruct (H4 Hs) as [B1 B2]. split; [apply bd_x; auto|]. rewrite run_x; auto. lia.
    + unfold sh, finish. cbn. f_equal; auto; lia.
Qed.

Lemma local_step y sc' : in_tag (st y) = true -> is_boundary t (a + pos y) = true \/ st y <> AfterOpeningStartTag ->
  outcome U t true cs (sh y) sc' -> pos y < b - a -> short sc' ->
  exists y', outcome U x false cs y y' /\ sc' = sh y'.
Proof.
  intros It Bs H L SH. pose proof SH as (NE & SP). pose proof (Bd_le _ _ HB) as LB.
  assert (NC : ~ content_like t (sh y)).
  { intros [C|[[C _]|[C _]]]; cbn [sh st] in C; rewrite C in It; discriminate. }
  inversion H; subst sc'; cbn [pos sh st] in *; try (exfalso; tauto);
    try (exfalso; match goal with E : st y = _ |- _ => rewrite E in It; discriminate end);
    try (exfalso; match goal with E : st y = _ \/ st y = _ |- _ => destruct E as [E|E]; rewrite E in It; discriminate end).
  - lia.
  - (* start tag name *)
    pose proof H1 as (A1 & A2 & _). cbn [pos finish] in SP. destruct SP as [SP|[SP _]]; [|discriminate].
    assert (Ev : e = a + (e - a)) by lia.
    eexists. split.
    + apply O_start_tag with (e := e - a); auto. apply elem_x; [rewrite <- Ev; auto|lia].
    + rewrite (sub_sub t a b) by lia. rewrite <- Ev.
      unfold sh, finish. cbn. do 2 f_equal; auto.
  - pose proof (skip_ws_some _ _ _ H1) as (A1 & A2 & _). cbn [pos finish] in SP. destruct SP as [SP|[SP _]]; [|discriminate].
    assert (Ev : e = a + (e - a)) by lia.
    eexists. split.
    + apply O_start_tag_ws with (e := e - a); auto. apply ws_x; [rewrite <- Ev; auto|lia].
    + unfold sh, finish. cbn. f_equal; auto.
  - (* unknown *)
    cbn [pos finish] in SP. destruct SP as [SP|[SP _]]; [|discriminate].
    assert (Ev : e = a + (e - a)) by lia. destruct Bs as [Bs|Bs]; [|congruence].
    eexists. split.
    + apply O_start_tag_unknown with (e := e - a); auto.
      * apply first_byte_x; [rewrite <- Ev; auto|lia].
      * lia.
      * apply no_ws_x; auto.
      * apply no_elem_x; auto.
    + unfold sh, finish. cbn. f_equal; auto.
  - (* in tag *)
    inversion H1; subst sc1; cbn [sh st pos] in *.
    + destruct (local_tag y sc'0) as (y' & Y1 & Y2); auto; [rewrite H3; auto|].
      exists y'. split; auto. apply O_in_tag with (sc1 := y); auto; [rewrite len_x; auto|].
      apply ET_tag; auto.
    + change (set_st WithinTag (reset (sh y))) with (sh (set_st WithinTag (reset y))) in H2.
      destruct (local_tag (set_st WithinTag (reset y)) sc'0) as (y' & Y1 & Y2); auto.
      exists y'. split; auto. apply O_in_tag with (sc1 := set_st WithinTag (reset y)); auto; [rewrite len_x; auto|].
      apply ET_open; auto. rewrite nth_x; auto.
    + change (set_st WithinTag (sh y)) with (sh (set_st WithinTag y)) in H2.
      destruct (local_tag (set_st WithinTag y) sc'0) as (y' & Y1 & Y2); auto.
      exists y'. split; auto. apply O_in_tag with (sc1 := set_st WithinTag y); auto; [rewrite len_x; auto|].
      apply ET_attr; auto using no_ws_x. rewrite nth_x; auto.
    + change (set_space false (set_st WithinTag (sh y))) with (sh (set_space false (set_st WithinTag y))) in H2.
      destruct (local_tag (set_space false (set_st WithinTag y)) sc'0) as (y' & Y1 & Y2); auto.
      exists y'. split; auto. apply O_in_tag with (sc1 := set_space false (set_st WithinTag y)); auto; [rewrite len_x; auto|].
      apply ET_value; auto using no_ws_x, bd_x; rewrite ?nth_x; auto. rewrite run_x; auto. lia.
  - pose proof (skip_ws_some _ _ _ H1) as (A1 & A2 & _). cbn [pos finish] in SP. destruct SP as [SP|[SP _]]; [|discriminate].
    assert (Ev : e = a + (e - a)) by lia.
    eexists. split.
    + apply O_attr_ws with (e := e - a); auto. apply ws_x; [rewrite <- Ev; auto|lia].
    + unfold sh, finish. cbn. f_equal; auto.
  - eexists. split.
    + apply O_assign; auto. rewrite nth_x; auto.
    + unfold sh, finish. cbn. f_equal; lia.
  - pose proof (skip_ws_some _ _ _ H1) as (A1 & A2 & _). cbn [pos finish] in SP. destruct SP as [SP|[SP _]]; [|discriminate].
    assert (Ev : e = a + (e - a)) by lia.
    eexists. split.
    + apply O_value_ws with (e := e - a); auto. apply ws_x; [rewrite <- Ev; auto|lia].
    + unfold sh, finish. cbn. f_equal; auto.
  - (* plain value *)
    cbn [pos finish] in SP. destruct SP as [SP|[SP _]]; [|discriminate].
    destruct H2 as (A1 & A2 & A3 & n & N1 & N2 & N3).
    assert (Ev : e = a + (e - a)) by lia.
    assert (Hn : a + pos y + n < b) by (destruct N3 as [[-> _]|[-> _]]; lia).
    eexists. split.
    + apply O_value_plain with (e := e - a); auto using no_ws_x.
      split; [lia|]. rewrite len_x. split; [lia|]. split; [apply bd_x; auto|].
      exists n. split; auto. split; [rewrite run_x; auto; lia|].
      destruct N3 as [[E1 N3]|[E1 N3]]; [left|right].
      * split; [lia|]. rewrite !nth_x by lia. replace (a + (pos y + n)) with (a + pos y + n) by lia. auto.
      * split; [lia|]. rewrite !nth_x by lia. rewrite <- Ev. auto.
    + rewrite (sub_sub t a b) by lia. rewrite <- Ev.
      unfold sh, finish, new_type. cbn. f_equal; auto.
  - (* quoted value *)
    cbn [pos finish] in SP. destruct SP as [SP|[SP _]]; [|discriminate].
    destruct H1 as (q & Q1 & Q2 & Q3 & Q4 & Q5 & Q6).
    assert (Ev : e = a + (e - a)) by lia.
    destruct Q6 as [[Q6 Q7]|[Q6 _]]; [|lia].
    eexists. split.
    + apply O_value_quoted with (e := e - a); auto.
      * exists q. split; auto. split; [rewrite nth_x; auto|]. split; [lia|]. rewrite len_x. split; [lia|]. split.
        -- intros i I1 I2. rewrite nth_x by lia. apply Q5; lia.
        -- left. split; [|lia]. rewrite nth_x by lia. replace (a + (e - a - 1)) with (e - 1) by lia. auto.
      * intros T. destruct (H2 T) as [T1 T2].
        split; apply bd_x; try lia.
        -- replace (a + (pos y + 1)) with (a + pos y + 1) by lia. auto.
        -- replace (a + (e - a - 1)) with (e - 1) by lia. auto.
    + replace (e - a - 1 <? pos y + 1) with (e - 1 <? a + pos y + 1) by lia.
      rewrite !(sub_sub t a b) by lia.
      replace (a + (e - a - 1)) with (e - 1) by lia. replace (a + (pos y + 1)) with (a + pos y + 1) by lia.
      unfold sh, finish, new_type. cbn. f_equal; auto.
Qed.
End L.
