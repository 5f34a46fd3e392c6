(** * Facts about byte strings, searching and UTF-8. *)
From Verif Require Import Base Stream.
From Coq Require Import ZifyBool ZifyNat ZifyN.

Ltac Zify.zify_post_hook ::= Z.div_mod_to_equations.

(** ** Tactics *)
Ltac inv H := inversion H; subst; clear H.
Ltac des_if H :=
  match type of H with context [if ?b then _ else _] => destruct b eqn:? end.

Lemma Some_inj {A} (a b : A) : Some a = Some b -> a = b.
Proof. congruence. Qed.
Lemma Ok_inj {A} (a b : A) : Ok a = Ok b -> a = b.
Proof. congruence. Qed.

(** ** Results *)
Lemma bind_ok {A B} (x : res A) (f : A -> res B) b :
  bind x f = Ok b <-> exists a, x = Ok a /\ f a = Ok b.
Proof.
  destruct x; simpl; split; intros H.
  - exists a; auto.
  - destruct H as (a' & E & H). inv E. exact H.
  - discriminate.
  - destruct H as (a' & E & H). discriminate.
  - discriminate.
  - destruct H as (a' & E & H). discriminate.
Qed.

(** ** Byte strings *)
Lemma beq_eq a b : beq a b = true <-> a = b.
Proof.
  revert b; induction a as [|x a IH]; intros [|y b]; simpl; try (split; congruence).
  rewrite andb_true_iff, IH, N.eqb_eq. split; [intros [-> ->]; auto | intros H; inv H; auto].
Qed.
Lemma beq_refl a : beq a a = true.
Proof. apply beq_eq; auto. Qed.
Lemma beq_neq a b : beq a b = false <-> a <> b.
Proof. rewrite <- beq_eq. destruct (beq a b); split; congruence. Qed.

Lemma is_prefix_spec p s : is_prefix p s = true <-> exists r, s = p ++ r.
Proof.
  revert s; induction p as [|x p IH]; intros s; simpl.
  - split; eauto.
  - destruct s as [|y s]; simpl.
    + split; [discriminate | intros (r & H); discriminate].
    + rewrite andb_true_iff, N.eqb_eq, IH. split.
      * intros (-> & r & ->). eauto.
      * intros (r & H). inv H. eauto.
Qed.

Lemma is_prefix_length p s : is_prefix p s = true -> length p <= length s.
Proof. rewrite is_prefix_spec. intros (r & ->). rewrite app_length. lia. Qed.

Lemma skipn_nth_error {A} (l : list A) n i : nth_error (skipn n l) i = nth_error l (n + i).
Proof.
  revert l; induction n as [|n IH]; intros l; simpl; auto.
  destruct l; simpl; auto. destruct i; auto.
Qed.

Lemma firstn_nth_error {A} (l : list A) n i :
  i < n -> nth_error (firstn n l) i = nth_error l i.
Proof.
  revert l i; induction n as [|n IH]; intros l i H; [lia|].
  destruct l; simpl; [destruct i; auto|]. destruct i; simpl; auto. apply IH; lia.
Qed.

Lemma skipn_cons {A} (l : list A) n x :
  nth_error l n = Some x -> skipn n l = x :: skipn (n + 1) l.
Proof.
  revert l; induction n as [|n IH]; intros l; destruct l; simpl; intros H; try discriminate.
  - inv H. auto.
  - apply IH; auto.
Qed.

Lemma skipn_all_iff {A} (l : list A) n : skipn n l = [] <-> length l <= n.
Proof.
  split; [|apply skipn_all2].
  intros H. assert (length (skipn n l) = 0) by (rewrite H; auto).
  rewrite skipn_length in H0. lia.
Qed.

Lemma nth_error_lt {A} (l : list A) n x : nth_error l n = Some x -> n < length l.
Proof. intros H. apply nth_error_Some. congruence. Qed.

Lemma nth_error_ge {A} (l : list A) n : length l <= n -> nth_error l n = None.
Proof. apply nth_error_None. Qed.

Lemma skipn_skipn {A} n m (l : list A) : skipn n (skipn m l) = skipn (n + m) l.
Proof.
  revert l; induction m as [|m IH]; intros l; simpl.
  - rewrite Nat.add_0_r. auto.
  - rewrite Nat.add_succ_r. destruct l; simpl; [apply skipn_nil|]. apply IH.
Qed.

(** [sub] *)
Lemma sub_nil s a : sub s a a = [].
Proof. unfold sub. rewrite Nat.sub_diag. auto. Qed.

Lemma sub_length s a b : a <= b -> b <= length s -> length (sub s a b) = b - a.
Proof. intros. unfold sub. rewrite firstn_length, skipn_length. lia. Qed.

Lemma sub_split s a b c : a <= b -> b <= c -> sub s a c = sub s a b ++ sub s b c.
Proof.
  intros. unfold sub.
  replace (c - a) with ((b - a) + (c - b)) by lia.
  rewrite <- (firstn_skipn (b - a) (firstn (b - a + (c - b)) (skipn a s))).
  rewrite firstn_firstn. f_equal.
  - f_equal. lia.
  - rewrite skipn_firstn_comm.
    replace (b - a + (c - b) - (b - a)) with (c - b) by lia.
    rewrite skipn_skipn. do 2 f_equal. lia.
Qed.

Lemma sub_full s : sub s 0 (length s) = s.
Proof. unfold sub. rewrite Nat.sub_0_r. simpl. apply firstn_all. Qed.

Lemma sub_nth_error s a b i :
  i < b - a -> nth_error (sub s a b) i = nth_error s (a + i).
Proof. intros. unfold sub. rewrite firstn_nth_error by auto. apply skipn_nth_error. Qed.

Lemma skipn_sub s a b : a <= b -> skipn a s = sub s a b ++ skipn b s.
Proof.
  intros. unfold sub. rewrite <- (firstn_skipn (b - a) (skipn a s)) at 1.
  f_equal. rewrite skipn_skipn. f_equal. lia.
Qed.

(** Single characters *)
Lemma sub_one s i x : nth_error s i = Some x -> sub s i (i + 1) = [x].
Proof.
  intros H. unfold sub. rewrite (skipn_cons _ _ _ H).
  replace (i + 1 - i) with 1 by lia. auto.
Qed.

Lemma is_prefix_sub p s i :
  is_prefix p (skipn i s) = true -> sub s i (i + length p) = p.
Proof.
  intros H. apply is_prefix_spec in H as (r & H). unfold sub. rewrite H.
  replace (i + length p - i) with (length p) by lia.
  rewrite firstn_app, firstn_all, Nat.sub_diag. simpl. apply app_nil_r.
Qed.

Lemma is_prefix_skipn_length p s i :
  is_prefix p (skipn i s) = true -> p <> [] -> i + length p <= length s.
Proof.
  intros H Hp. apply is_prefix_length in H. rewrite skipn_length in H.
  destruct p; [congruence|]. simpl in *. lia.
Qed.

(** Searching *)
Lemma find_byte_some b s n :
  find_byte b s = Some n <->
  nth_error s n = Some b /\ (forall i, i < n -> nth_error s i <> Some b).
Proof.
  revert n; induction s as [|x s IH]; intros n; simpl.
  - split; [discriminate|]. intros [H _]. destruct n; discriminate.
  - destruct (N.eqb_spec x b) as [->|Hx].
    + split.
      * intros H; inv H. split; auto. lia.
      * intros [H1 H2]. destruct n; auto. exfalso. apply (H2 0); [lia|auto].
    + destruct (find_byte b s) as [m|] eqn:E.
      * split.
        -- intros H; inv H. destruct (proj1 (IH m) eq_refl) as [H1 H2]. split; auto.
           intros [|i] Hi; simpl; [congruence|]. apply H2. lia.
        -- intros [H1 H2]. destruct n; simpl in H1; [congruence|].
           f_equal. f_equal.
           assert (Some m = Some n) as Q; [|congruence].
           apply IH. split; auto. intros i Hi. apply (H2 (S i)). lia.
      * split; [discriminate|]. intros [H1 H2]. destruct n; simpl in H1; [congruence|].
        assert (None = Some n) as Q; [|congruence].
        apply IH. split; auto. intros i Hi. apply (H2 (S i)). lia.
Qed.

Lemma find_byte_none b s : find_byte b s = None <-> ~ In b s.
Proof.
  induction s as [|x s IH]; simpl; [tauto|].
  destruct (N.eqb_spec x b) as [->|Hx].
  - split; [discriminate|]. tauto.
  - destruct (find_byte b s); split; try discriminate; intros H; intuition congruence.
Qed.

Lemma find_str_some p s n :
  find_str p s = Some n <->
  is_prefix p (skipn n s) = true /\ n <= length s /\
  (forall i, i < n -> is_prefix p (skipn i s) = false).
Proof.
  revert n; induction s as [|x s IH]; intros n.
  - simpl. destruct (is_prefix p []) eqn:E.
    + split.
      * intros H; inv H. simpl. repeat split; auto. lia.
      * intros (H1 & H2 & H3). simpl in H2. f_equal. lia.
    + split; [discriminate|]. intros (H1 & H2 & H3).
      rewrite skipn_nil in H1. congruence.
  - cbn [find_str]. destruct (is_prefix p (x :: s)) eqn:E.
    + split.
      * intros H; inv H. simpl. rewrite E. repeat split; auto; lia.
      * intros (H1 & H2 & H3). destruct n; auto.
        specialize (H3 0 ltac:(lia)). simpl in H3. congruence.
    + destruct (find_str p s) as [m|] eqn:F.
      * split.
        -- intros H; inv H. destruct (proj1 (IH m) eq_refl) as (H1 & H2 & H3).
           simpl. repeat split; auto; [lia|]. intros [|i] Hi; simpl; auto. apply H3; lia.
        -- intros (H1 & H2 & H3). destruct n; simpl in *; [congruence|].
           f_equal. f_equal. assert (Some m = Some n) as Q; [|congruence].
           apply IH. repeat split; auto; [lia|]. intros i Hi. apply (H3 (S i)). lia.
      * split; [discriminate|]. intros (H1 & H2 & H3). destruct n; simpl in *; [congruence|].
        assert (None = Some n) as Q; [|congruence].
        apply IH. repeat split; auto; [lia|]. intros i Hi. apply (H3 (S i)). lia.
Qed.

Lemma find_str_none p s :
  find_str p s = None <-> (forall i, i <= length s -> is_prefix p (skipn i s) = false).
Proof.
  induction s as [|x s IH].
  - simpl. destruct (is_prefix p []) eqn:E; split; try discriminate; auto.
    + intros H. specialize (H 0 ltac:(lia)). simpl in H. congruence.
    + intros _ i Hi. rewrite skipn_nil. auto.
  - cbn [find_str]. destruct (is_prefix p (x :: s)) eqn:E.
    + split; [discriminate|]. intros H. specialize (H 0 ltac:(lia)). simpl in H. congruence.
    + destruct (find_str p s) as [m|] eqn:F.
      * split; [discriminate|]. intros H.
        assert (Some m = None) as Q; [|congruence]. apply IH.
        intros i Hi. apply (H (S i)). simpl. lia.
      * split; auto. intros _ [|i] Hi; auto. simpl. apply IH; auto. simpl in Hi. lia.
Qed.

(** Stream operations *)
Lemma peek_is_true t p b : peek_is t p b = true <-> nth_error t p = Some b.
Proof.
  unfold peek_is, peek. destruct (nth_error t p); [|split; discriminate].
  rewrite N.eqb_eq. split; congruence.
Qed.
Lemma peek_is_false t p b : peek_is t p b = false <-> nth_error t p <> Some b.
Proof. rewrite <- peek_is_true. destruct (peek_is t p b); split; congruence. Qed.

Lemma adv_if_char_some t p b q :
  adv_if_char t p b = Some q <-> nth_error t p = Some b /\ q = p + 1.
Proof.
  unfold adv_if_char. destruct (peek_is t p b) eqn:E.
  - apply peek_is_true in E. split; [intros H; inv H; auto | intros [_ ->]; auto].
  - apply peek_is_false in E. split; [discriminate | tauto].
Qed.
Lemma adv_if_char_none t p b : adv_if_char t p b = None <-> nth_error t p <> Some b.
Proof.
  unfold adv_if_char. rewrite <- peek_is_false. destruct (peek_is t p b); split; congruence.
Qed.

Lemma adv_if_chars_some t p x q :
  adv_if_chars t p x = Some q <-> is_prefix x (skipn p t) = true /\ q = p + length x.
Proof.
  unfold adv_if_chars. destruct (is_prefix x (skipn p t)); split; try discriminate.
  - intros H; inv H; auto.
  - intros [_ ->]; auto.
  - intros [H _]; discriminate.
Qed.
Lemma adv_if_chars_none t p x :
  adv_if_chars t p x = None <-> is_prefix x (skipn p t) = false.
Proof. unfold adv_if_chars. destruct (is_prefix x (skipn p t)); split; congruence. Qed.

(** [first_byte t p b q]: [q] is the first offset at or after [p] holding byte
    [b], or the end of the text when there is none. *)
Definition first_byte (t : str) (p : nat) (b : N) (q : nat) : Prop :=
  p <= q /\ q <= length t /\
  (forall i, p <= i -> i < q -> nth_error t i <> Some b) /\
  (q = length t \/ nth_error t q = Some b).

Lemma adv_until_char_spec t p b :
  p <= length t ->
  first_byte t p b (snd (adv_until_char t p b)) /\
  (fst (adv_until_char t p b) = true -> nth_error t (snd (adv_until_char t p b)) = Some b) /\
  (fst (adv_until_char t p b) = false -> snd (adv_until_char t p b) = length t).
Proof.
  intros Hp. unfold adv_until_char. destruct (find_byte b (skipn p t)) as [n|] eqn:E; simpl.
  - apply find_byte_some in E as [E1 E2]. rewrite skipn_nth_error in E1.
    pose proof (nth_error_lt _ _ _ E1).
    split; [|split; [auto|discriminate]].
    repeat split; try lia; auto.
    intros i H1 H2. specialize (E2 (i - p) ltac:(lia)). rewrite skipn_nth_error in E2.
    replace (p + (i - p)) with i in E2 by lia. auto.
  - split; [|split; [discriminate|auto]].
    repeat split; try lia; auto.
    intros i H1 H2 Hn. apply find_byte_none in E. apply E.
    replace i with (p + (i - p)) in Hn by lia. rewrite <- skipn_nth_error in Hn.
    eapply nth_error_In; eauto.
Qed.

(** The same for a substring. *)
Definition first_str (t : str) (p : nat) (x : str) (q : nat) : Prop :=
  p <= q /\ q <= length t /\
  (forall i, p <= i -> i < q -> is_prefix x (skipn i t) = false) /\
  (is_prefix x (skipn q t) = true \/
   q = length t /\ (forall i, p <= i -> is_prefix x (skipn i t) = false)).

Lemma is_prefix_nil_false x : x <> [] -> is_prefix x [] = false.
Proof. destruct x; simpl; congruence. Qed.

Lemma find_str_first t p x :
  p <= length t -> x <> [] ->
  first_str t p x (match find_str x (skipn p t) with Some n => p + n | None => length t end).
Proof.
  intros Hp Hx. destruct (find_str x (skipn p t)) as [n|] eqn:E.
  - apply find_str_some in E as (E1 & E2 & E3). rewrite skipn_length in E2.
    rewrite skipn_skipn in E1. replace (n + p) with (p + n) in E1 by lia.
    repeat split; try lia; auto.
    intros i H1 H2. specialize (E3 (i - p) ltac:(lia)). rewrite skipn_skipn in E3.
    replace (i - p + p) with i in E3 by lia. auto.
  - assert (A : forall i, p <= i -> is_prefix x (skipn i t) = false).
    { intros i Hi. destruct (Nat.le_gt_cases i (length t)).
      - rewrite find_str_none in E. specialize (E (i - p)). rewrite skipn_skipn, skipn_length in E.
        replace (i - p + p) with i in E by lia. apply E. lia.
      - rewrite skipn_all2 by lia. apply is_prefix_nil_false; auto. }
    repeat split; try lia; auto.
Qed.

Lemma adv_until_chars_spec t p x :
  p <= length t -> x <> [] -> first_str t p x (adv_until_chars t p x).
Proof. apply find_str_first. Qed.

(** skip_whitespace *)
Lemma ws_len_spec s :
  ws_len s <= length s /\
  (forall i, i < ws_len s -> exists b, nth_error s i = Some b /\ is_ws b = true) /\
  (forall b, nth_error s (ws_len s) = Some b -> is_ws b = false).
Proof.
  induction s as [|x s (H1 & H2 & H3)]; simpl.
  - repeat split; intros; try lia; discriminate.
  - destruct (is_ws x) eqn:E.
    + repeat split; simpl; [lia| |auto].
      intros [|i] Hi; simpl; eauto. apply H2. lia.
    + repeat split; simpl; [lia|lia|]. intros b Hb. congruence.
Qed.

Lemma skip_ws_some t p q :
  skip_ws t p = Some q ->
  p < q /\ q <= length t /\
  (forall i, p <= i -> i < q -> exists b, nth_error t i = Some b /\ is_ws b = true) /\
  (forall b, nth_error t q = Some b -> is_ws b = false).
Proof.
  unfold skip_ws. destruct (ws_len_spec (skipn p t)) as (H1 & H2 & H3).
  destruct (ws_len (skipn p t)) as [|n] eqn:E; intros H; inv H.
  rewrite skipn_length in H1. repeat split; try lia.
  - intros i Hi1 Hi2. destruct (H2 (i - p) ltac:(lia)) as (b & Hb & Hw).
    rewrite skipn_nth_error in Hb. replace (p + (i - p)) with i in Hb by lia. eauto.
  - intros b Hb. apply H3. rewrite skipn_nth_error. auto.
Qed.

Lemma skip_ws_none t p :
  skip_ws t p = None -> forall b, nth_error t p = Some b -> is_ws b = false.
Proof.
  unfold skip_ws. destruct (ws_len_spec (skipn p t)) as (H1 & H2 & H3).
  destruct (ws_len (skipn p t)) as [|n] eqn:E; intros H; [|discriminate].
  intros b Hb. apply H3. rewrite skipn_nth_error, Nat.add_0_r. auto.
Qed.

(** Slices *)
Lemma slice_ok s a b r :
  slice s a b = Ok r <->
  a <= b /\ b <= length s /\ is_boundary s a = true /\ is_boundary s b = true /\ r = sub s a b.
Proof.
  unfold slice, sub.
  destruct (a <=? b) eqn:E1; destruct (b <=? length s) eqn:E2; simpl;
    try (split; [discriminate | intros (? & ? & _); lia]).
  destruct (is_boundary s a), (is_boundary s b); simpl; split; try discriminate;
    try (intros (? & ? & ? & ? & ?); congruence).
  - intros H; inv H. repeat split; auto; lia.
  - intros (_ & _ & _ & _ & ->); auto.
Qed.

Lemma slice_panic s a b r :
  slice s a b = Panic r ->
  r = PSlice /\ (b < a \/ length s < b \/ is_boundary s a = false \/ is_boundary s b = false).
Proof.
  unfold slice.
  destruct (a <=? b) eqn:E1; destruct (b <=? length s) eqn:E2; simpl;
    try (intros H; inv H; split; [auto|lia]).
  destruct (is_boundary s a), (is_boundary s b); simpl; intros H; inv H; auto.
Qed.

Lemma slice_no_fuel s a b : slice s a b <> OutOfFuel.
Proof. unfold slice. destruct (_ && _); discriminate. Qed.

Lemma boundary_0 s : is_boundary s 0 = true.
Proof. reflexivity. Qed.
Lemma boundary_len s : is_boundary s (length s) = true.
Proof. unfold is_boundary. rewrite Nat.eqb_refl, orb_true_r. auto. Qed.
Lemma boundary_byte s i b : nth_error s i = Some b -> (b < 128)%N -> is_boundary s i = true.
Proof.
  intros H Hb. unfold is_boundary. rewrite H. unfold is_cont.
  replace (128 <=? b)%N with false by lia. simpl. apply orb_true_r.
Qed.

(** ** UTF-8 *)
Inductive enc_shape : N -> str -> Prop :=
| Enc1 c : (c < 128)%N -> enc_shape c [c]
| Enc2 c a b : (128 <= c)%N -> (192 <= a)%N -> (a < 224)%N -> is_cont b = true ->
               cp2 a b = c -> enc_shape c [a; b]
| Enc3 c a b d : (128 <= c)%N -> (224 <= a)%N -> (a < 240)%N -> is_cont b = true ->
                 is_cont d = true -> cp3 a b d = c -> enc_shape c [a; b; d]
| Enc4 c a b d e : (128 <= c)%N -> (240 <= a)%N -> (a < 248)%N -> is_cont b = true ->
                   is_cont d = true -> is_cont e = true -> cp4 a b d e = c ->
                   enc_shape c [a; b; d; e].

Lemma encode1_shape c : scalar c = true -> enc_shape c (encode1 c).
Proof.
  unfold scalar, encode1. intros H.
  destruct (c <? 128)%N eqn:E1; [constructor; lia|].
  destruct (c <? 2048)%N eqn:E2; [apply Enc2; unfold is_cont, cp2; lia|].
  destruct (c <? 65536)%N eqn:E3; [apply Enc3; unfold is_cont, cp3; lia|].
  apply Enc4; unfold is_cont, cp4; lia.
Qed.

Lemma encode1_nonempty c : scalar c = true -> 1 <= length (encode1 c).
Proof. intros H. apply encode1_shape in H. inv H; simpl; lia. Qed.

Lemma encode1_first c b r :
  scalar c = true -> encode1 c = b :: r -> is_cont b = false.
Proof. intros H E. apply encode1_shape in H. rewrite E in H. unfold is_cont. inv H; lia. Qed.

Lemma encode1_rest c i b :
  scalar c = true -> nth_error (encode1 c) i = Some b -> 0 < i -> is_cont b = true.
Proof.
  intros H E Hi. apply encode1_shape in H. destruct H; simpl in E;
  repeat (destruct i as [|i]; simpl in E; try lia; try congruence);
  destruct i; discriminate.
Qed.

Lemma encode1_ascii c b r :
  scalar c = true -> encode1 c = b :: r -> (b < 128)%N -> c = b /\ r = [].
Proof. intros H E Hb. apply encode1_shape in H. rewrite E in H. inv H; auto; lia. Qed.

Lemma encode1_nonascii c b r :
  scalar c = true -> encode1 c = b :: r -> (128 <= b)%N ->
  (128 <= c)%N /\ 1 <= length r.
Proof. intros H E Hb. apply encode1_shape in H. rewrite E in H. inv H; simpl; lia. Qed.

Lemma encode_app a b : encode (a ++ b) = encode a ++ encode b.
Proof. unfold encode. rewrite flat_map_app. auto. Qed.

Lemma encode_cons c cs : encode (c :: cs) = encode1 c ++ encode cs.
Proof. reflexivity. Qed.

(** Offsets of characters of a valid text. *)
Definition Bd (t : str) (i : nat) : Prop :=
  exists c1 c2, forallb scalar c1 = true /\ forallb scalar c2 = true /\
                t = encode c1 ++ encode c2 /\ i = length (encode c1).

Lemma Bd_0 t : Utf8 t -> Bd t 0.
Proof. intros (cs & H & ->). exists [], cs. auto. Qed.
Lemma Bd_len t : Utf8 t -> Bd t (length t).
Proof. intros (cs & H & ->). exists cs, []. simpl. rewrite app_nil_r. auto. Qed.
Lemma Bd_utf8 t i : Bd t i -> Utf8 t.
Proof.
  intros (c1 & c2 & H1 & H2 & -> & _). exists (c1 ++ c2).
  rewrite forallb_app, H1, H2, encode_app. auto.
Qed.
Lemma Bd_le t i : Bd t i -> i <= length t.
Proof. intros (c1 & c2 & _ & _ & -> & ->). rewrite app_length. lia. Qed.

Lemma Bd_boundary t i : Bd t i -> is_boundary t i = true.
Proof.
  intros (c1 & c2 & H1 & H2 & -> & ->). unfold is_boundary.
  destruct c2 as [|c c2].
  - simpl. rewrite app_nil_r, Nat.eqb_refl, orb_true_r. auto.
  - rewrite nth_error_app2, Nat.sub_diag by lia. rewrite encode_cons.
    simpl in H2. apply andb_true_iff in H2 as [H2 _].
    pose proof (encode1_nonempty _ H2).
    destruct (encode1 c) as [|b r] eqn:E; [simpl in *; lia|]. simpl.
    rewrite (encode1_first _ _ _ H2 E). simpl. apply orb_true_r.
Qed.

Lemma boundary_Bd t i : Utf8 t -> i <= length t -> is_boundary t i = true -> Bd t i.
Proof.
  intros (cs & H & ->). revert i. induction cs as [|c cs IH]; intros i Hi Hb.
  - simpl in Hi. exists [], []. repeat split; auto. simpl. lia.
  - simpl in H. apply andb_true_iff in H as [Hc H]. specialize (IH H).
    rewrite encode_cons in *. rewrite app_length in Hi.
    destruct (Nat.eq_dec i 0) as [->|Hi0].
    { exists [], (c :: cs). simpl. rewrite Hc, H. auto. }
    destruct (Nat.lt_ge_cases i (length (encode1 c))) as [Hl|Hl].
    + exfalso. unfold is_boundary in Hb.
      replace (i =? 0) with false in Hb by lia.
      replace (i =? length (encode1 c ++ encode cs)) with false in Hb
        by (rewrite app_length; lia).
      simpl in Hb. rewrite nth_error_app1 in Hb by auto.
      destruct (nth_error (encode1 c) i) as [b|] eqn:E; [|discriminate].
      rewrite (encode1_rest _ _ _ Hc E ltac:(lia)) in Hb. discriminate.
    + destruct (IH (i - length (encode1 c))) as (c1 & c2 & H1 & H2 & E & L).
      * lia.
      * unfold is_boundary in Hb |- *.
        replace (i =? 0) with false in Hb by lia.
        rewrite nth_error_app2 in Hb by auto. rewrite app_length in Hb.
        destruct (i =? length (encode1 c) + length (encode cs)) eqn:Q.
        -- replace (i - length (encode1 c) =? length (encode cs)) with true by lia.
           rewrite orb_true_r. auto.
        -- simpl in Hb. rewrite Hb. apply orb_true_r.
      * exists (c :: c1), c2. cbn [forallb]. rewrite Hc, H1, H2. repeat split; auto.
        -- rewrite E, encode_cons, app_assoc. auto.
        -- rewrite encode_cons, app_length. lia.
Qed.

Lemma Bd_skipn t i : Bd t i -> exists cs, forallb scalar cs = true /\ skipn i t = encode cs.
Proof.
  intros (c1 & c2 & H1 & H2 & -> & ->). exists c2. split; auto.
  rewrite skipn_app, Nat.sub_diag, skipn_all. auto.
Qed.

(** Advancing a boundary by the encoding of a prefix of the remaining characters. *)
Lemma Bd_advance t i cs1 cs2 :
  Bd t i -> forallb scalar (cs1 ++ cs2) = true -> skipn i t = encode (cs1 ++ cs2) ->
  Bd t (i + length (encode cs1)).
Proof.
  intros (c1 & c2 & H1 & H2 & -> & ->) H E.
  rewrite forallb_app in H. apply andb_true_iff in H as [Ha Hb].
  rewrite skipn_app, Nat.sub_diag, skipn_all in E. simpl in E.
  exists (c1 ++ cs1), cs2. rewrite forallb_app, H1, Ha, E, !encode_app, app_assoc, app_length.
  auto.
Qed.

Lemma Bd_next_ascii t i b :
  Bd t i -> nth_error t i = Some b -> (b < 128)%N -> Bd t (i + 1).
Proof.
  intros HB Hn Hb. destruct (Bd_skipn _ _ HB) as (cs & Hs & E).
  rewrite (skipn_cons _ _ _ Hn) in E.
  destruct cs as [|c cs]; [discriminate|]. rewrite encode_cons in E.
  simpl in Hs. apply andb_true_iff in Hs as [Hc Hs].
  pose proof (encode1_nonempty _ Hc).
  destruct (encode1 c) as [|b' r] eqn:F; [simpl in *; lia|]. simpl in E. inv E.
  destruct (encode1_ascii _ _ _ Hc F Hb) as [-> ->].
  replace (i + 1) with (i + length (encode [b'])) by (simpl; rewrite F; auto).
  apply Bd_advance with (cs2 := cs); auto.
  - simpl. rewrite Hc. auto.
  - simpl. rewrite F. rewrite (skipn_cons _ _ _ Hn). simpl. f_equal. auto.
Qed.

(** An ASCII byte is a character of its own. *)
Lemma Bd_at_ascii t i b : Utf8 t -> nth_error t i = Some b -> (b < 128)%N -> Bd t i.
Proof.
  intros HU Hn Hb. apply boundary_Bd; auto.
  - apply nth_error_lt in Hn. lia.
  - eapply boundary_byte; eauto.
Qed.

Lemma Bd_after_ascii t i b : Utf8 t -> nth_error t i = Some b -> (b < 128)%N -> Bd t (i + 1).
Proof. intros HU Hn Hb. eapply Bd_next_ascii; eauto. eapply Bd_at_ascii; eauto. Qed.

(** Character runs *)
Fixpoint take_while (p : N -> bool) (cs : list N) : list N :=
  match cs with
  | [] => []
  | c :: r => if p c then c :: take_while p r else []
  end.

Lemma take_while_split p cs :
  exists r, cs = take_while p cs ++ r /\
            (forall c r', r = c :: r' -> p c = false).
Proof.
  induction cs as [|c cs (r & E & H)]; simpl.
  - exists []. split; auto. intros; discriminate.
  - destruct (p c) eqn:P.
    + exists r. simpl. rewrite <- E. auto.
    + exists (c :: cs). split; auto. intros c' r' Q. inv Q. auto.
Qed.

Lemma take_while_forall p cs : forallb p (take_while p cs) = true.
Proof. induction cs as [|c cs IH]; simpl; auto. destruct (p c) eqn:P; simpl; auto. rewrite P; auto. Qed.

Lemma char_run_encode1 p c rest :
  scalar c = true ->
  char_run p (encode1 c ++ rest) = if p c then length (encode1 c) + char_run p rest else 0.
Proof.
  intros H. apply encode1_shape in H. destruct H; subst; cbn [app length char_run].
  - replace (c <? 128)%N with true by lia. destruct (p c); auto.
  - replace (a <? 128)%N with false by lia. replace (a <? 224)%N with true by lia. auto.
  - replace (a <? 128)%N with false by lia. replace (a <? 224)%N with false by lia.
    replace (a <? 240)%N with true by lia. auto.
  - replace (a <? 128)%N with false by lia. replace (a <? 224)%N with false by lia.
    replace (a <? 240)%N with false by lia. auto.
Qed.

Lemma char_run_encode p cs :
  forallb scalar cs = true ->
  char_run p (encode cs) = length (encode (take_while p cs)).
Proof.
  induction cs as [|c cs IH]; simpl; auto. intros H.
  apply andb_true_iff in H as [Hc H]. fold encode. 
  change (flat_map encode1 cs) with (encode cs).
  rewrite char_run_encode1 by auto. destruct (p c); auto.
  rewrite encode_cons, app_length, IH; auto.
Qed.

Lemma char_run_le p s : char_run p s <= length s.
Proof.
  enough (H : forall n s, length s <= n -> char_run p s <= length s) by (eapply H; eauto).
  clear s. induction n as [|n IH]; intros s Hn.
  - destruct s; simpl in *; lia.
  - destruct s as [|b0 r0]; [simpl; lia|]. cbn [char_run].
    destruct (b0 <? 128)%N.
    { destruct (p b0); [|lia]. cbn [length] in *. specialize (IH r0). lia. }
    destruct r0 as [|b1 r1]; [lia|]. destruct (b0 <? 224)%N.
    { destruct (p _); [|lia]. cbn [length] in *. specialize (IH r1). lia. }
    destruct r1 as [|b2 r2]; [lia|]. destruct (b0 <? 240)%N.
    { destruct (p _); [|lia]. cbn [length] in *. specialize (IH r2). lia. }
    destruct r2 as [|b3 r3]; [lia|].
    destruct (p _); [|lia]. cbn [length] in *. specialize (IH r3). lia.
Qed.

Lemma Bd_char_run t i p :
  Bd t i -> Bd t (i + char_run p (skipn i t)).
Proof.
  intros H. destruct (Bd_skipn _ _ H) as (cs & Hs & E). rewrite E, char_run_encode by auto.
  destruct (take_while_split p cs) as (r & R & _).
  apply Bd_advance with (cs2 := r); rewrite <- ?R; auto.
Qed.

Lemma decode1_encode c cs :
  scalar c = true ->
  decode1 (encode (c :: cs)) = Some (c, length (encode1 c)).
Proof.
  intros H. rewrite encode_cons. apply encode1_shape in H.
  destruct H; subst; cbn [app length decode1].
  - replace (c <? 128)%N with true by lia. auto.
  - replace (a <? 128)%N with false by lia. replace (a <? 224)%N with true by lia. auto.
  - replace (a <? 128)%N with false by lia. replace (a <? 224)%N with false by lia.
    replace (a <? 240)%N with true by lia. auto.
  - replace (a <? 128)%N with false by lia. replace (a <? 224)%N with false by lia.
    replace (a <? 240)%N with false by lia. auto.
Qed.

Lemma decode_encode cs : forallb scalar cs = true -> decode (encode cs) = cs.
Proof.
  induction cs as [|c cs IH]; simpl; auto. intros H. apply andb_true_iff in H as [Hc H].
  specialize (IH H). change (flat_map encode1 cs) with (encode cs).
  apply encode1_shape in Hc. destruct Hc; subst; cbn [app decode].
  - replace (c <? 128)%N with true by lia. rewrite IH. auto.
  - replace (a <? 128)%N with false by lia. replace (a <? 224)%N with true by lia. rewrite IH; auto.
  - replace (a <? 128)%N with false by lia. replace (a <? 224)%N with false by lia.
    replace (a <? 240)%N with true by lia. rewrite IH; auto.
  - replace (a <? 128)%N with false by lia. replace (a <? 224)%N with false by lia.
    replace (a <? 240)%N with false by lia. rewrite IH; auto.
Qed.

Lemma ascii_utf8 s : all_ascii s = true -> Utf8 s.
Proof.
  intros H. exists s. unfold all_ascii in H.
  induction s as [|b s IH]; simpl in *; auto.
  apply andb_true_iff in H as [Hb H]. destruct (IH H) as [H1 H2]. split.
  - rewrite H1. unfold scalar. replace (b <? 55296)%N with true by lia. auto.
  - unfold encode1. rewrite Hb. simpl. f_equal. auto.
Qed.
