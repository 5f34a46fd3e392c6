(** * Facts about the limit on folding ranges (limit_ranges) *)
From Verif Require Import Base BaseFacts Folding.
From Coq Require Import ZifyBool ZifyNat ZifyN Sorting.Sorted Sorting.Permutation.

(** ** Specification *)
(** [out] is obtained from [l] by leaving elements out. *)
Inductive sublist {A} : list A -> list A -> Prop :=
| sub_nil : sublist [] []
| sub_skip x out l : sublist out l -> sublist out (x :: l)
| sub_take x out l : sublist out l -> sublist (x :: out) (x :: l).
Definition encloses (y x : frange) : Prop := f_start y < f_start x /\ f_end x <= f_end y.
Definition enclosesb (x y : frange) : bool := (f_start y <? f_start x) && (f_end x <=? f_end y).
(** The number of ranges around [x]. *)
Definition depth (l : list frange) (x : frange) : nat := length (filter (enclosesb x) l).
(** No two ranges start on the same line, and two ranges share a line only if one
    encloses the other. *)
Definition well_nested (l : list frange) : Prop :=
  NoDup (map f_start l) /\ (forall a, In a l -> f_start a <= f_end a) /\
  forall a b, In a l -> In b l -> f_start a < f_start b -> f_end b <= f_end a \/ f_end a < f_start b.

Lemma enclosesb_spec x y : enclosesb x y = true <-> encloses y x.
Proof. unfold enclosesb, encloses. rewrite andb_true_iff, Nat.ltb_lt, Nat.leb_le. tauto. Qed.

(** ** Sorting *)
Lemma insert_perm x l : Permutation (insert_range x l) (x :: l).
Proof.
  induction l as [|y l IH]; cbn; auto. destruct (frange_le x y); auto.
  rewrite IH. apply perm_swap.
Qed.
Lemma sort_perm l : Permutation (sort_ranges l) l.
Proof.
  induction l as [|x l IH]; cbn; auto. rewrite insert_perm. auto.
Qed.
Lemma frange_le_total a b : frange_le a b = false -> frange_le b a = true.
Proof. unfold frange_le. lia. Qed.
Lemma frange_le_trans a b c : frange_le a b = true -> frange_le b c = true -> frange_le a c = true.
Proof. unfold frange_le. lia. Qed.
Lemma insert_sorted x l : StronglySorted (fun a b => frange_le a b = true) l ->
  StronglySorted (fun a b => frange_le a b = true) (insert_range x l).
Proof.
  induction 1 as [|y l S IH F]; cbn.
  - repeat constructor.
  - destruct (frange_le x y) eqn:E.
    + constructor; [constructor; auto|]. constructor; auto.
      eapply Forall_impl; [|exact F]. intros z Z. eapply frange_le_trans; eauto.
    + constructor; auto. apply frange_le_total in E.
      rewrite Forall_forall in *. intros z Z.
      apply (Permutation_in _ (insert_perm x l)) in Z as [<-|Z]; auto.
Qed.
Lemma sort_sorted l : StronglySorted (fun a b => frange_le a b = true) (sort_ranges l).
Proof. induction l; cbn; [constructor|apply insert_sorted; auto]. Qed.

Lemma well_nested_perm l l' : Permutation l l' -> well_nested l -> well_nested l'.
Proof.
  intros P (A & B & C). split; [eapply Permutation_NoDup; [apply Permutation_map; eauto|auto]|].
  split; [intros a I|intros a b I J]; eauto using Permutation_in, Permutation_sym.
  apply C; eauto using Permutation_in, Permutation_sym.
Qed.
Lemma depth_perm l l' x : Permutation l l' -> depth l x = depth l' x.
Proof.
  unfold depth. induction 1; cbn; auto.
  - destruct (enclosesb x x0); cbn; auto.
  - destruct (enclosesb x x0), (enclosesb x y); cbn; auto.
  - congruence.
Qed.
Lemma sorted_starts l : NoDup (map f_start l) -> StronglySorted (fun a b => frange_le a b = true) l ->
  StronglySorted (fun a b => f_start a < f_start b) l.
Proof.
  intros N S. induction S as [|x l S IH F]; constructor.
  - inv N. auto.
  - inv N. rewrite Forall_forall in *. intros y I. specialize (F y I).
    assert (f_start x <> f_start y) by (intros E; apply H1; rewrite E; apply in_map; auto).
    unfold frange_le in F. lia.
Qed.

(** ** pick_loop only leaves out *)
Lemma pick_sublist limit m levels l : forall i entries out,
  pick_loop limit m i entries levels l = Ok out -> sublist out l.
Proof.
  induction l as [|x l IH]; intros i entries out H; cbn [pick_loop] in H.
  - inv H. constructor.
  - destruct (nth_error levels i) as [lv|]; [|discriminate].
    destruct (lv <=? m); [|apply IH in H; apply sub_skip; auto].
    destruct (lv =? m); apply bind_ok in H as (rest & R & H); apply IH in R.
    + destruct (entries <? limit); inv H; [apply sub_take|apply sub_skip]; auto.
    + inv H. apply sub_take; auto.
Qed.
Lemma limit_sublist l limit out : limit_ranges l limit = Ok out -> sublist out (sort_ranges l).
Proof.
  unfold limit_ranges. destruct (level_loop _ _ _ _ _) as [levels counts].
  destruct (count_loop _ _ _ _) as [m e]. apply pick_sublist.
Qed.

(** ** Levels *)
Section L.
Variable l : list frange.
Hypothesis HW : well_nested l.
Hypothesis HS : StronglySorted (fun a b => f_start a < f_start b) l.
Notation dep := (depth l).

Lemma split_starts done x r : l = done ++ x :: r -> (forall y, In y done -> f_start y < f_start x) /\
  (forall y, In y r -> f_start x < f_start y).
Proof.
  intros E. rewrite E in HS. clear E HW. induction done as [|z done IH]; cbn in HS.
  - inv HS. split; [cbn; tauto|]. rewrite Forall_forall in H2. auto.
  - inv HS. destruct (IH H1) as [A B]. split; auto. intros y [<-|I]; auto.
    rewrite Forall_forall in H2. apply H2. apply in_or_app. right. left. auto.
Qed.
Lemma dep_done done x r : l = done ++ x :: r -> dep x = length (filter (enclosesb x) done).
Proof.
  intros E. destruct (split_starts _ _ _ E) as [A B]. unfold depth. rewrite E, filter_app, app_length. cbn [filter].
  assert (N : enclosesb x x = false) by (unfold enclosesb; lia). rewrite N.
  assert (Z : filter (enclosesb x) r = []).
  { apply length_zero_iff_nil. destruct (filter (enclosesb x) r) as [|z q] eqn:F; auto.
    assert (I : In z (filter (enclosesb x) r)) by (rewrite F; left; auto).
    apply filter_In in I as [I1 I2]. apply B in I1. unfold enclosesb in I2. lia. }
  rewrite Z. cbn. lia.
Qed.

(** The stack of the loop (top first) holds the ranges around the next entry. *)
Record stack_inv (done stk : list frange) : Prop := {
  si_in : forall y, In y stk -> In y done;
  si_nest : StronglySorted (fun a b => f_end a <= f_end b) stk;
  si_count : forall x, f_start x <= f_end x -> (forall y, In y done -> f_start y < f_start x) ->
     length (filter (enclosesb x) done) = length (filter (enclosesb x) stk)
}.
Fixpoint popped (s : nat) (stk : list frange) : list frange :=
  match stk with [] => [] | x :: r => if f_end x <? s then popped s r else stk end.
Lemma pop_until_spec s stk : match pop_until s stk with (Some x, r) => x :: r | (None, r) => r end = popped s stk.
Proof.
  induction stk as [|x r IH]; cbn [pop_until popped]; auto.
  destruct (f_end x <? s); [exact IH|reflexivity].
Qed.
Lemma popped_in s stk y : In y (popped s stk) -> In y stk.
Proof. induction stk as [|x r IH]; cbn [popped]; auto. destruct (f_end x <? s); cbn [In]; auto. Qed.
Lemma popped_sorted s stk (R : frange -> frange -> Prop) : StronglySorted R stk -> StronglySorted R (popped s stk).
Proof. induction 1 as [|x r S IH F]; cbn [popped]; [constructor|]. destruct (f_end x <? s); auto. constructor; auto. Qed.
Lemma popped_all s stk : StronglySorted (fun a b => f_end a <= f_end b) stk ->
  forall y, In y (popped s stk) -> s <= f_end y.
Proof.
  induction 1 as [|x r S IH F]; cbn [popped In]; [tauto|]. intros y. destruct (f_end x <? s) eqn:E; auto.
  intros [<-|I]; [lia|]. rewrite Forall_forall in F. apply F in I. lia.
Qed.
Lemma popped_filter s stk x : s <= f_start x -> (forall y, In y l -> f_start y <= f_end y) -> f_start x <= f_end x ->
  filter (enclosesb x) (popped s stk) = filter (enclosesb x) stk.
Proof.
  intros L _ Lx. induction stk as [|y r IH]; cbn [popped]; auto.
  destruct (f_end y <? s) eqn:E; auto. cbn [filter].
  replace (enclosesb x y) with false; auto. unfold enclosesb. lia.
Qed.
Lemma filter_all {A} (f : A -> bool) q : (forall y, In y q -> f y = true) -> filter f q = q.
Proof.
  induction q as [|y q IH]; cbn; auto. intros H. rewrite H by auto. f_equal. auto.
Qed.

Lemma stack_step done stk x r : stack_inv done stk -> l = done ++ x :: r ->
  dep x = length (popped (f_start x) stk) /\ stack_inv (done ++ [x]) (x :: popped (f_start x) stk).
Proof.
  intros [SI SN SC] E. destruct (split_starts _ _ _ E) as [A B]. destruct HW as (W1 & W2 & W3).
  assert (Ix : In x l) by (rewrite E; apply in_or_app; right; left; auto).
  assert (Id : forall y, In y done -> In y l) by (intros y I; rewrite E; apply in_or_app; auto).
  assert (EN : forall y, In y (popped (f_start x) stk) -> enclosesb x y = true).
  { intros y I. assert (I1 := popped_in _ _ _ I). apply SI in I1. pose proof (popped_all _ _ SN _ I).
    destruct (W3 y x) as [Q|Q]; auto; [|lia]. unfold enclosesb. specialize (A _ I1). lia. }
  split.
  - rewrite (dep_done _ _ _ E), (SC x (W2 x Ix) A). rewrite <- (popped_filter (f_start x)); auto.
    rewrite filter_all; auto.
  - split.
    + intros y [<-|I]; apply in_or_app; [right; left; auto|left]. apply SI. eapply popped_in; eauto.
    + constructor; [apply popped_sorted; auto|]. apply Forall_forall. intros y I. apply EN in I.
      unfold enclosesb in I. lia.
    + intros z Hz Z. rewrite filter_app, app_length. cbn [filter].
      rewrite (SC z) by (auto; intros y I; apply Z; apply in_or_app; auto).
      assert (Lz : f_start x < f_start z) by (apply Z; apply in_or_app; right; left; auto).
      assert (F : length (filter (enclosesb z) (popped (f_start x) stk)) = length (filter (enclosesb z) stk)).
      { clear - Hz Lz SI W2 Id SN. revert SI. induction SN as [|y q SN IH F]; intros SI; cbn [popped]; auto.
        destruct (f_end y <? f_start x) eqn:E; auto. rewrite IH by (intros; apply SI; right; auto).
        cbn [filter]. destruct (enclosesb z y) eqn:Q; auto. exfalso.
        assert (f_start y <= f_end y) by (apply W2, Id, SI; left; auto). unfold enclosesb in Q.
        lia. }
      destruct (enclosesb z x); cbn; lia.
Qed.

(** ** The counters *)
Lemma update_length f i v : length (update f i v) = length v.
Proof. revert i; induction v as [|x v IH]; intros [|i]; cbn; auto. Qed.
Lemma update_nth f i v k : i < length v ->
  nth k (update f i v) 0 = if k =? i then f (nth k v 0) else nth k v 0.
Proof.
  revert i k; induction v as [|x v IH]; intros [|i] [|k] H; cbn in *; auto; try lia.
  apply IH. lia.
Qed.
Lemma pad_length n v : length (pad n v) = Nat.max n (length v).
Proof. unfold pad. rewrite app_length, repeat_length. lia. Qed.
Lemma nth_repeat0 n k : nth k (repeat 0 n) 0 = 0.
Proof. revert k; induction n; intros [|k]; cbn; auto. Qed.
Lemma pad_nth n v k : nth k (pad n v) 0 = nth k v 0.
Proof.
  unfold pad. destruct (Nat.lt_ge_cases k (length v)) as [L|L].
  - apply app_nth1. auto.
  - rewrite app_nth2, nth_repeat0, nth_overflow; auto.
Qed.
Lemma update_last n x v : update (fun _ => n) (length v) (v ++ [x]) = v ++ [n].
Proof. induction v; cbn; auto. congruence. Qed.
Lemma set_level levels counts n : n < 30 ->
  exists counts', set_nesting_level (length levels) n (levels, counts) = (levels ++ [n], counts') /\
    forall k, nth k counts' 0 = nth k counts 0 + (if n =? k then 1 else 0).
Proof.
  intros H. unfold set_nesting_level. apply Nat.ltb_lt in H. rewrite H.
  eexists. split.
  - f_equal. unfold pad. replace (length levels + 1 - length levels) with 1 by lia. apply update_last.
  - intros k. rewrite update_nth by (rewrite pad_length; lia). rewrite !pad_nth.
    rewrite (Nat.eqb_sym n k). destruct (k =? n) eqn:E; lia.
Qed.

Definition cnt (q : list frange) (k : nat) : nat := length (filter (fun x => dep x =? k) q).

Lemma level_loop_spec r : forall done top previous levels counts,
  (forall x, In x l -> dep x < 30) -> l = done ++ r ->
  stack_inv done (match top with Some x => x :: previous | None => [] end) ->
  (top = None -> done = [] /\ previous = []) ->
  levels = map dep done -> (forall k, nth k counts 0 = cnt done k) ->
  exists counts', level_loop (length done) r top previous (levels, counts) = (map dep l, counts') /\
    forall k, nth k counts' 0 = cnt l k.
Proof.
  induction r as [|x r IH]; intros done top previous levels counts D E SI HT HL HC.
  - rewrite app_nil_r in E. subst done. cbn. exists counts. subst; auto.
  - destruct (stack_step _ _ _ _ SI E) as [Dx SI'].
    assert (Ix : In x l) by (rewrite E; apply in_or_app; right; left; auto).
    specialize (D x Ix) as Dlt. 
    assert (LL : length done = length levels) by (subst levels; rewrite map_length; auto).
    assert (E' : l = (done ++ [x]) ++ r) by (rewrite <- app_assoc; auto).
    destruct (set_level levels counts (dep x) Dlt) as (c' & S' & C').
    assert (CN : forall k, nth k c' 0 = cnt (done ++ [x]) k).
    { intros k. rewrite C', HC. unfold cnt. rewrite filter_app, app_length. cbn [filter].
      destruct (dep x =? k); auto. }
    assert (LN : levels ++ [dep x] = map dep (done ++ [x])) by (rewrite map_app; subst; auto).
    assert (NX : length (done ++ [x]) = S (length done)) by (rewrite app_length; cbn; lia).
    cbn [level_loop]. destruct top as [tp|].
    + assert (It : In tp done) by (apply (si_in _ _ SI); left; auto).
      destruct (split_starts _ _ _ E) as [A _]. specialize (A _ It) as At.
      apply Nat.ltb_lt in At. rewrite At. apply Nat.ltb_lt in At.
      assert (It' : In tp l) by (rewrite E; apply in_or_app; auto).
      destruct HW as (W1 & W2 & W3).
      destruct (f_end x <=? f_end tp) eqn:Q1.
      * assert (P : popped (f_start x) (tp :: previous) = tp :: previous).
        { cbn [popped]. pose proof (W2 x Ix). replace (f_end tp <? f_start x) with false by lia. auto. }
        rewrite P in *. cbn [length] in Dx. rewrite <- Dx, LL, S', <- LL, <- NX.
        apply IH; auto. discriminate.
      * destruct (f_end tp <? f_start x) eqn:Q2.
        2:{ exfalso. destruct (W3 tp x); auto; lia. }
        assert (P : popped (f_start x) (tp :: previous) = popped (f_start x) previous).
        { cbn [popped]. rewrite Q2. auto. }
        rewrite P in *. pose proof (pop_until_spec (f_start x) previous) as PU.
        destruct (pop_until (f_start x) previous) as [top' rest].
        assert (PU' : match top' with Some x0 => x0 :: rest | None => rest end = popped (f_start x) previous)
          by (destruct top'; auto).
        rewrite PU', <- Dx, LL, S', <- LL, <- NX. apply IH; auto. discriminate.
    + destruct (HT eq_refl) as [-> ->]. cbn in Dx. rewrite Dx in *. cbn [length] in *.
      subst levels. cbn [map length] in S'. cbn [map]. rewrite S'. change 1 with (length ([] ++ [x])). apply IH; auto. discriminate.
Qed.
Lemma stack_inv0 : stack_inv [] [].
Proof. split; cbn; auto; constructor. Qed.

(** ** Choosing the level *)
Definition sum (v : list nat) : nat := fold_right Nat.add 0 v.
Lemma count_loop_spec limit counts : forall i entries, entries <= limit -> limit < entries + sum counts ->
  exists j, count_loop limit i entries counts = (i + j, entries + sum (firstn j counts)) /\
    entries + sum (firstn j counts) <= limit /\ limit < entries + sum (firstn j counts) + nth j counts 0.
Proof.
  induction counts as [|n counts IH]; intros i entries L G; cbn [sum fold_right] in G; [lia|].
  fold (sum counts) in G. cbn [count_loop].
  destruct ((0 <? n) && (limit <? n + entries)) eqn:Q.
  - exists 0. cbn. rewrite !Nat.add_0_r. rewrite andb_true_iff, Nat.ltb_lt, Nat.ltb_lt in Q.
    split; [auto|]. lia.
  - assert (n + entries <= limit).
    { rewrite andb_false_iff, !Nat.ltb_ge in Q. lia. }
    destruct (IH (S i) (entries + n)) as (j & E & A & B); try lia.
    exists (S j). rewrite E. cbn [firstn sum fold_right nth]. fold (sum (firstn j counts)).
    split; [f_equal; lia|]. lia.
Qed.
Lemma sum_firstn counts j : (forall k, nth k counts 0 = cnt l k) ->
  sum (firstn j counts) = length (filter (fun x => dep x <? j) l).
Proof.
  intros H. induction j as [|j IH].
  - cbn. generalize (depth l) as g. intros g. clear. induction l; cbn; auto.
  - assert (E : sum (firstn (S j) counts) = sum (firstn j counts) + nth j counts 0).
    { clear. revert j. induction counts as [|n v IH]; intros j.
      - destruct j; reflexivity.
      - destruct j as [|j]; [cbn; lia|]. specialize (IH j).
        change (firstn (S (S j)) (n :: v)) with (n :: firstn (S j) v).
        change (firstn (S j) (n :: v)) with (n :: firstn j v).
        change (sum (n :: firstn (S j) v)) with (n + sum (firstn (S j) v)).
        change (sum (n :: firstn j v)) with (n + sum (firstn j v)). cbn [nth]. lia. }
    rewrite E, IH, H. unfold cnt. generalize (depth l) as g. intros g. clear.
    induction l as [|x q IHq]; cbn [filter]; auto.
    destruct (g x <? j) eqn:E1, (g x =? j) eqn:E2, (g x <? S j) eqn:E3; cbn [length]; lia.
Qed.
End L.

Lemma pick_spec (g : frange -> nat) limit m levels q : forall i entries,
  (forall j x, nth_error q j = Some x -> nth_error levels (i + j) = Some (g x)) ->
  exists out, pick_loop limit m i entries levels q = Ok out /\
    length out = length (filter (fun x => g x <? m) q) +
                 Nat.min (limit - entries) (length (filter (fun x => g x =? m) q)) /\
    (forall x, In x out -> g x <= m) /\ (forall x, In x q -> g x < m -> In x out).
Proof.
  induction q as [|x q IH]; intros i entries H; cbn [pick_loop].
  - exists []. cbn. split; auto. split; [lia|]. split; intros; tauto.
  - pose proof (H 0 x eq_refl) as H0. rewrite Nat.add_0_r in H0. rewrite H0.
    assert (H' : forall j y, nth_error q j = Some y -> nth_error levels (S i + j) = Some (g y)).
    { intros j y E. replace (S i + j) with (i + S j) by lia. apply H. auto. }
    cbn [filter]. destruct (g x <=? m) eqn:Q1.
    + destruct (g x =? m) eqn:Q2.
      * destruct (IH (S i) (S entries) H') as (out & E & L & A & B). rewrite E. cbn [bind].
        replace (g x <? m) with false by lia. cbn [length].
        eexists. split; [reflexivity|]. destruct (entries <? limit) eqn:Q3.
        -- cbn [length]. split; [lia|]. split.
           ++ intros y [<-|I]; auto. lia.
           ++ intros y [<-|I] G; [lia|right; auto].
        -- split; [lia|]. split; auto. intros y [<-|I] G; [lia|auto].
      * destruct (IH (S i) entries H') as (out & E & L & A & B). rewrite E. cbn [bind].
        replace (g x <? m) with true by lia. cbn [length].
        eexists. split; [reflexivity|]. cbn [length]. split; [lia|]. split.
        -- intros y [<-|I]; auto. lia.
        -- intros y [<-|I] G; [left; auto|right; auto].
    + destruct (IH (S i) entries H') as (out & E & L & A & B). rewrite E.
      replace (g x <? m) with false by lia. replace (g x =? m) with false by lia.
      exists out. split; auto. split; auto. split; auto. intros y [<-|I] G; [lia|auto].
Qed.

(** The limited list of well-nested ranges: exactly [limit] of them, outer ones
    first: whatever has fewer ranges around it than a kept one is kept. *)
Lemma limit_levels ranges limit : well_nested ranges -> (forall x, In x ranges -> depth ranges x < 30) ->
  limit < length ranges ->
  exists out, limit_ranges ranges limit = Ok out /\ length out = limit /\ sublist out (sort_ranges ranges) /\
    forall x y, In x out -> In y ranges -> depth ranges y < depth ranges x -> In y out.
Proof.
  intros W D L. set (l := sort_ranges ranges). assert (P : Permutation l ranges) by apply sort_perm.
  assert (W' : well_nested l) by (eapply well_nested_perm; [apply Permutation_sym; eauto|auto]).
  assert (S : StronglySorted (fun a b => f_start a < f_start b) l).
  { apply sorted_starts; [apply W'|apply sort_sorted]. }
  assert (D' : forall x, In x l -> depth l x < 30).
  { intros x I. rewrite (depth_perm _ _ x P). apply D. eapply Permutation_in; eauto. }
  destruct (level_loop_spec l W' S l [] None [] [] [] D' eq_refl stack_inv0) as (counts & E & C); auto.
  { intros k. cbn. destruct k; auto. }
  cbn [length] in E.
  assert (LC : sum counts = length l).
  { rewrite <- (firstn_all counts), (sum_firstn l counts _ C).
    rewrite filter_all; auto. intros x I. apply Nat.ltb_lt.
    destruct (Nat.lt_ge_cases (depth l x) (length counts)) as [Q|Q]; auto. exfalso.
    specialize (C (depth l x)). rewrite nth_overflow in C by auto.
    assert (J : In x (filter (fun y => depth l y =? depth l x) l)).
    { apply filter_In. split; auto. apply Nat.eqb_refl. }
    unfold cnt in C. destruct (filter (fun y => depth l y =? depth l x) l); [destruct J|discriminate]. }
  assert (LL : length l = length ranges) by (apply Permutation_length; auto).
  destruct (count_loop_spec limit counts 0 0) as (m & EC & A & B); try lia.
  cbn in EC. cbn [Nat.add] in A, B. rewrite (sum_firstn l counts m C) in EC, A, B.
  destruct (pick_spec (depth l) limit m (map (depth l) l) l 0 (length (filter (fun x => depth l x <? m) l)))
    as (out & EO & LO & O1 & O2).
  { intros j x N. cbn. rewrite nth_error_map, N. auto. }
  assert (R : limit_ranges ranges limit = Ok out).
  { unfold limit_ranges. fold l. rewrite E, EC. auto. }
  exists out. split; auto. split.
  - rewrite LO. rewrite C in B. unfold cnt in B. lia.
  - split; [apply (limit_sublist _ _ _ R)|]. intros x y I J K.
    rewrite <- !(depth_perm _ _ _ P) in K. apply O2.
    + eapply Permutation_in; [apply Permutation_sym; eauto|auto].
    + specialize (O1 _ I). lia.
Qed.
Lemma encloses_depth l x y : encloses y x -> (forall z, In z l -> encloses z y -> encloses z x) -> In y l ->
  depth l y < depth l x.
Proof.
  intros E T I. unfold depth.
  assert (A : filter (enclosesb y) l = filter (enclosesb y) (filter (enclosesb x) l)).
  { clear I E. induction l as [|z l IH]; cbn [filter]; auto.
    destruct (enclosesb y z) eqn:Q.
    - assert (Q' : enclosesb x z = true).
      { apply enclosesb_spec. apply T; [left; auto|]. apply enclosesb_spec. auto. }
      rewrite Q'. cbn [filter]. rewrite Q. f_equal. apply IH. intros. apply T; auto. right; auto.
    - destruct (enclosesb x z); cbn [filter]; rewrite ?Q; apply IH; intros; apply T; auto; right; auto. }
  rewrite A. assert (J : In y (filter (enclosesb x) l)) by (apply filter_In; split; auto; apply enclosesb_spec; auto).
  assert (N : enclosesb y y = false) by (unfold enclosesb; lia).
  clear - J N. induction (filter (enclosesb x) l) as [|z q IH]; [destruct J|]. cbn [filter].
  assert (G : forall p : list frange, length (filter (enclosesb y) p) <= length p).
  { clear. induction p; cbn; auto. destruct (enclosesb y a); cbn; lia. }
  destruct J as [->|J].
  - rewrite N. cbn. specialize (G q). lia.
  - specialize (IH J). destruct (enclosesb y z); cbn; lia.
Qed.
