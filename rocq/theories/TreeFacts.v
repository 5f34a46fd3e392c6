(** * Facts about the document queries of Tree.v on well-formed trees. *)
From Verif Require Import Base Stream Scanner BaseFacts Tree Parser ParseSpec ParseInv ParseOrder.
From Coq Require Import ZifyBool ZifyNat ZifyN.

(** A node whose children lie strictly inside it, in order, without overlap. *)
Definition nested (n : node) : Prop :=
  n_start n < n_end n /\ chain (S (n_start n)) (n_children n) (n_end n).
(** A forest of such trees. *)
Definition wf_forest (l : list node) : Prop :=
  (exists a b, chain a l b) /\ Forall (all_nodes nested) l.

Lemma wf_tail c l : wf_forest (c :: l) -> wf_forest l.
Proof. intros [(a & b & C) F]. inv F. destruct C as (_ & _ & C). split; eauto. Qed.
Lemma wf_children n : all_nodes nested n -> wf_forest (n_children n).
Proof. intros A. inv A. destruct H as [H1 H2]. split; eauto. Qed.

Lemma chain_bounds l : forall a b c, chain a l b -> In c l -> a <= n_start c /\ n_start c < n_end c /\ n_end c <= b.
Proof.
  induction l as [|x l IH]; intros a b c H I; [contradiction|]. destruct H as (H1 & H2 & H3).
  destruct I as [->|I].
  - apply chain_le in H3. lia.
  - apply (IH _ _ _ H3) in I. lia.
Qed.

(** Descendants lie inside. *)
Lemma preorder_bounds n : all_nodes nested n ->
  forall m, In m (preorder n) -> n_start n <= n_start m /\ n_start m < n_end m /\ n_end m <= n_end n.
Proof.
  revert n. apply (node_induction (fun n => all_nodes nested n -> forall m, In m (preorder n) ->
     n_start n <= n_start m /\ n_start m < n_end m /\ n_end m <= n_end n)).
  intros n IH A m I. inv A. destruct H as [H1 H2]. rewrite preorder_eq in I.
  destruct I as [->|I]; [lia|]. apply in_flat_map in I as (c & C & I).
  rewrite Forall_forall in *. pose proof (chain_bounds _ _ _ _ H2 C).
  specialize (IH c C (H0 c C) m I). lia.
Qed.
Lemma preorder_bounds_strict n m : all_nodes nested n -> In m (flat_map preorder (n_children n)) ->
  n_start n < n_start m /\ n_end m <= n_end n.
Proof.
  intros A I. apply in_flat_map in I as (c & C & I). inv A. destruct H as [H1 H2].
  rewrite Forall_forall in H0. pose proof (chain_bounds _ _ _ _ H2 C).
  pose proof (preorder_bounds c (H0 c C) m I). lia.
Qed.

(** ** Paths: [path l ps n]: [n] is reached from the forest [l] through its
    ancestors [ps], outermost first. *)
Inductive path : list node -> list node -> node -> Prop :=
| path_root l n : In n l -> path l [] n
| path_child l r ps n : In r l -> path (n_children r) ps n -> path l (r :: ps) n.

Lemma path_in l ps n : path l ps n -> In n (flat_map preorder l) /\ Forall (fun x => In x (flat_map preorder l)) ps.
Proof.
  induction 1 as [l n I|l r ps n I P [IH1 IH2]].
  - split; auto. apply in_flat_map. exists n. rewrite preorder_eq. cbn. auto.
  - assert (IN : forall x, In x (flat_map preorder (n_children r)) -> In x (flat_map preorder l)).
    { intros x X. apply in_flat_map. exists r. rewrite preorder_eq. cbn. auto. }
    split; auto. constructor.
    + apply in_flat_map. exists r. rewrite preorder_eq. cbn. auto.
    + eapply Forall_impl; [|exact IH2]. auto.
Qed.

(** Height *)
Lemma height_eq n : height n = S (fold_right (fun c m => Nat.max (height c) m) 0 (n_children n)).
Proof. destruct n; reflexivity. Qed.
Lemma height_child n c : In c (n_children n) -> S (height c) <= height n.
Proof.
  intros I. rewrite (height_eq n). apply le_n_S. induction (n_children n) as [|x l IH]; [contradiction|].
  cbn [fold_right]. destruct I as [->|I]; [lia|]. apply IH in I. lia.
Qed.

(** ** find_node_at *)
Definition contains (o : nat) (n : node) : bool := (n_start n <=? o) && (o <? n_end n).

Lemma filter_none {A} (f : A -> bool) l : (forall x, In x l -> f x = false) -> filter f l = [].
Proof.
  induction l as [|x l IH]; cbn [filter]; intros H; auto. rewrite (H x) by (left; auto).
  apply IH. intros; apply H; right; auto.
Qed.
Lemma contains_none n o : all_nodes nested n -> contains o n = false -> filter (contains o) (preorder n) = [].
Proof.
  intros A C. apply filter_none. intros m I. apply (preorder_bounds n A) in I. unfold contains in *. lia.
Qed.

(** The loop over siblings finds the only candidate. *)
Lemma idx_at_spec o l : wf_forest l ->
  match idx_at o l with
  | 0 => filter (contains o) (flat_map preorder l) = []
  | S i => exists c, nth_error l i = Some c /\ n_start c <= o /\ all_nodes nested c /\
             filter (contains o) (flat_map preorder l) = filter (contains o) (preorder c)
  end.
Proof.
  induction l as [|c l IH]; intros W; cbn [idx_at flat_map]; auto.
  assert (W' := wf_tail _ _ W). destruct W as [(a & b & C) F]. destruct C as (C1 & C2 & C3).
  inv F. destruct (o <? n_start c) eqn:E.
  - rewrite filter_app, contains_none by (auto; unfold contains; lia).
    apply filter_none. intros m I. apply in_flat_map in I as (x & X & I).
    rewrite Forall_forall in H2. pose proof (chain_bounds _ _ _ _ C3 X).
    apply (preorder_bounds x (H2 x X)) in I. unfold contains. lia.
  - rewrite filter_app. specialize (IH W'). destruct (idx_at o l) as [|i] eqn:K.
    + exists c. rewrite IH, app_nil_r. cbn [nth_error]. split; [auto|split; [lia|auto]].
    + destruct IH as (x & X1 & X2 & X3 & X4). exists x. cbn [nth_error].
      split; [auto|split; [auto|split; [auto|]]].
      rewrite X4, contains_none; auto.
      apply nth_error_In in X1. pose proof (chain_bounds _ _ _ _ C3 X1). unfold contains. lia.
Qed.

Lemma find_at_fuel o fuel : forall n, height n <= fuel -> all_nodes nested n -> contains o n = true ->
  exists m ps, find_node_at_fuel fuel n o = Ok (m, ps) /\
    filter (contains o) (preorder n) = ps ++ [m] /\
    (ps = [] /\ m = n \/ exists ps', ps = n :: ps' /\ path (n_children n) ps' m).
Proof.
  induction fuel as [|fuel IH]; intros n Hh A C; [rewrite height_eq in Hh; lia|].
  cbn [find_node_at_fuel]. rewrite preorder_eq. cbn [filter]. rewrite C.
  pose proof (idx_at_spec o _ (wf_children _ A)) as I. destruct (idx_at o (n_children n)) as [|i].
  - exists n, []. rewrite I. auto.
  - destruct I as (c & N & L & Ac & E). rewrite N. rewrite E.
    change ((n_start c <=? o) && (o <? n_end c)) with (contains o c). destruct (contains o c) eqn:Cc.
    + apply nth_error_In in N as In_c. pose proof (height_child _ _ In_c).
      destruct (IH c ltac:(lia) Ac Cc) as (m & ps & F & Q & P). rewrite F. cbn [bind].
      exists m, (n :: ps). rewrite Q. repeat split; auto. right. exists ps. split; auto.
      destruct P as [[-> ->]|(ps' & -> & P)]; [constructor; auto|econstructor 2; eauto].
    + exists n, []. rewrite contains_none; auto.
Qed.

Theorem find_node_at_spec roots o : wf_forest roots ->
  exists r, find_node_at roots o = Ok r /\
    filter (contains o) (flat_map preorder roots) =
      match r with Some (n, ps) => ps ++ [n] | None => [] end /\
    match r with Some (n, ps) => path roots ps n | None => True end.
Proof.
  intros W. unfold find_node_at. pose proof (idx_at_spec o _ W) as I.
  destruct (idx_at o roots) as [|i]; [exists None; auto|].
  destruct I as (c & N & L & Ac & E). rewrite N.
  change ((n_start c <=? o) && (o <? n_end c)) with (contains o c). destruct (contains o c) eqn:Cc.
  - unfold find_node_at_in. destruct (find_at_fuel o (height c) c (le_n _) Ac Cc) as (m & ps & F & Q & P).
    rewrite F. cbn [bind]. exists (Some (m, ps)). rewrite E. repeat split; auto.
    apply nth_error_In in N. destruct P as [[-> ->]|(ps' & -> & P)]; [constructor; auto|econstructor 2; eauto].
  - exists None. rewrite E, contains_none; auto.
Qed.

(** ** find_node_before *)
Definition before (o : nat) (n : node) : bool := n_start n <? o.

(** [last_path l o ps n]: [n] is the last node in document order that starts
    before [o], and [ps] its ancestors. *)
Lemma idx_before_spec o l : wf_forest l ->
  match idx_before o l with
  | 0 => filter (before o) (flat_map preorder l) = []
  | S i => exists c front, nth_error l i = Some c /\ n_start c < o /\ all_nodes nested c /\
             (n_end c <= o -> last (map Some l) None = Some c \/ exists d, In d l /\ o <= n_start d) /\
             filter (before o) (flat_map preorder l) = front ++ filter (before o) (preorder c)
  end.
Proof.
  induction l as [|c l IH]; intros W; cbn [idx_before flat_map]; auto.
  assert (W' := wf_tail _ _ W). destruct W as [(a & b & C) F]. destruct C as (C1 & C2 & C3).
  inv F. destruct (o <=? n_start c) eqn:E.
  - rewrite filter_app. rewrite filter_none.
    2: { intros m I. apply (preorder_bounds c H1) in I. unfold before. lia. }
    apply filter_none. intros m I. apply in_flat_map in I as (x & X & I).
    rewrite Forall_forall in H2. pose proof (chain_bounds _ _ _ _ C3 X).
    apply (preorder_bounds x (H2 x X)) in I. unfold before. lia.
  - rewrite filter_app. specialize (IH W'). destruct (idx_before o l) as [|i] eqn:K.
    + exists c, []. rewrite IH, app_nil_r. cbn [nth_error app].
      split; [auto|split; [lia|split; [auto|split; [|auto]]]].
      intros _. destruct l as [|d l]; [left; auto|]. right. exists d. split; [cbn; auto|].
      cbn [idx_before] in K. destruct (o <=? n_start d) eqn:E'; [lia|discriminate].
    + destruct IH as (x & front & X1 & X2 & X3 & X4 & X5).
      exists x, (filter (before o) (preorder c) ++ front). cbn [nth_error].
      split; [auto|split; [auto|split; [auto|split]]].
      * intros Q. destruct (X4 Q) as [X|(d & D1 & D2)].
        -- left. destruct l; [destruct i; discriminate|]. exact X.
        -- right. exists d. cbn. auto.
      * rewrite X5, app_assoc. auto.
Qed.

(** When the search goes on below a node. *)
Definition goes_below (o : nat) (n : node) : Prop :=
  o < n_end n \/ exists lc, last_child n = Some lc /\ n_end lc = n_end n.

Lemma find_before_fuel o fuel : forall n, height n <= fuel -> all_nodes nested n -> before o n = true ->
  goes_below o n ->
  exists m ps, find_node_before_fuel fuel n o = Ok (m, ps) /\
    (ps = [] /\ m = n \/ exists ps', ps = n :: ps' /\ path (n_children n) ps' m) /\
    Forall (fun x => before o x = true /\ goes_below o x) ps /\ before o m = true /\
    exists front back, filter (before o) (preorder n) = front ++ m :: back /\
      (forall x, In x back -> In x (flat_map preorder (n_children m))) /\
      (back <> [] -> ~ goes_below o m).
Proof.
  induction fuel as [|fuel IH]; intros n Hh A B G; [rewrite height_eq in Hh; lia|].
  cbn [find_node_before_fuel]. rewrite preorder_eq. cbn [filter]. rewrite B.
  pose proof (idx_before_spec o _ (wf_children _ A)) as I.
  destruct (idx_before o (n_children n)) as [|i].
  - exists n, []. rewrite I. repeat split; auto. exists [], []. repeat split; auto; contradiction.
  - destruct I as (c & front & N & L & Ac & _ & E). rewrite N, E.
    replace (n_start c <? o) with true by lia.
    apply nth_error_In in N as In_c. pose proof (height_child _ _ In_c).
    assert (GO : goes_below o c -> exists m ps,
      (do ' (r, ps0) <- find_node_before_fuel fuel c o; Ok (r, n :: ps0)) = Ok (m, ps) /\
      (ps = [] /\ m = n \/ exists ps', ps = n :: ps' /\ path (n_children n) ps' m) /\
      Forall (fun x => before o x = true /\ goes_below o x) ps /\ before o m = true /\
      exists front0 back, n :: front ++ filter (before o) (preorder c) = front0 ++ m :: back /\
      (forall x, In x back -> In x (flat_map preorder (n_children m))) /\
      (back <> [] -> ~ goes_below o m)).
    { intros Gc. destruct (IH c ltac:(lia) Ac ltac:(unfold before; lia) Gc)
        as (m & ps & F & P & Q & Bm & f & b & E1 & E2 & E3).
      rewrite F. cbn [bind]. exists m, (n :: ps). split; [auto|]. split; [right|].
      - exists ps. split; auto. destruct P as [[-> ->]|(ps' & -> & P)]; [constructor; auto|econstructor 2; eauto].
      - split; [constructor; auto|]. split; auto.
        exists (n :: front ++ f), b. rewrite E1. cbn. rewrite <- app_assoc. auto. }
    assert (STOP : ~ goes_below o c -> exists m ps,
      Ok (c, [n]) = Ok (m, ps) /\
      (ps = [] /\ m = n \/ exists ps', ps = n :: ps' /\ path (n_children n) ps' m) /\
      Forall (fun x => before o x = true /\ goes_below o x) ps /\ before o m = true /\
      exists front0 back, n :: front ++ filter (before o) (preorder c) = front0 ++ m :: back /\
      (forall x, In x back -> In x (flat_map preorder (n_children m))) /\
      (back <> [] -> ~ goes_below o m)).
    { intros Gc. exists c, [n]. split; auto. split; [right; exists []; split; auto; constructor; auto|].
      split; auto. split; [unfold before; lia|].
      exists (n :: front), (filter (before o) (flat_map preorder (n_children c))).
      rewrite (preorder_eq c). cbn [filter]. replace (before o c) with true by (unfold before; lia).
      repeat split; auto. intros x X. apply filter_In in X. tauto. }
    destruct (o <? n_end c) eqn:Lc; [apply GO; left; lia|].
    destruct (last_child c) as [lc|] eqn:LC.
    + destruct (n_end lc =? n_end c) eqn:Le.
      * apply GO. right. exists lc. split; auto. lia.
      * apply STOP. intros [Q|(lc' & Q1 & Q2)]; [lia|]. rewrite LC in Q1. inv Q1. lia.
    + apply STOP. intros [Q|(lc' & Q1 & Q2)]; [lia|]. congruence.
Qed.

Theorem find_node_before_spec roots o : wf_forest roots ->
  exists r, find_node_before roots o = Ok r /\
  match r with
  | None => forall x, In x (flat_map preorder roots) -> o <= n_start x
  | Some (m, ps) =>
      path roots ps m /\ n_start m < o /\
      Forall (fun x => n_start x < o /\ goes_below o x) ps /\
      exists front back, filter (before o) (flat_map preorder roots) = front ++ m :: back /\
        (forall x, In x back -> In x (flat_map preorder (n_children m))) /\
        (back <> [] -> ~ goes_below o m)
  end.
Proof.
  intros W. unfold find_node_before. pose proof (idx_before_spec o _ W) as I.
  destruct (idx_before o roots) as [|i].
  { exists None. split; auto. intros x X. destruct (Nat.le_gt_cases o (n_start x)) as [|L]; auto.
    exfalso. assert (In x (filter (before o) (flat_map preorder roots))).
    { apply filter_In. split; auto. unfold before. lia. }
    rewrite I in H. contradiction. }
  destruct I as (c & front & N & L & Ac & _ & E). rewrite N, E.
  replace (n_start c <? o) with true by lia. apply nth_error_In in N as In_c.
  assert (IMP : forall ps, Forall (fun x => before o x = true /\ goes_below o x) ps ->
                           Forall (fun x => n_start x < o /\ goes_below o x) ps).
  { intros ps. apply Forall_impl. unfold before. intros x [X Y]. split; auto. lia. }
  assert (GO : goes_below o c -> exists r,
    (do x <- find_node_before_in c o; Ok (Some x)) = Ok r /\
    match r with
    | None => forall x, In x (flat_map preorder roots) -> o <= n_start x
    | Some (m, ps) =>
        path roots ps m /\ n_start m < o /\
        Forall (fun x => n_start x < o /\ goes_below o x) ps /\
        exists front0 back, front ++ filter (before o) (preorder c) = front0 ++ m :: back /\
          (forall x, In x back -> In x (flat_map preorder (n_children m))) /\
          (back <> [] -> ~ goes_below o m)
    end).
  { intros G. unfold find_node_before_in.
    destruct (find_before_fuel o (height c) c (le_n _) Ac ltac:(unfold before; lia) G)
      as (m & ps & F & P & Q & Bm & f & b & E1 & E2 & E3).
    rewrite F. cbn [bind]. exists (Some (m, ps)). split; auto. split.
    - destruct P as [[-> ->]|(ps' & -> & P)]; [constructor; auto|econstructor 2; eauto].
    - split; [unfold before in Bm; lia|]. split; auto.
      exists (front ++ f), b. rewrite E1, <- app_assoc. auto. }
  assert (STOP : ~ goes_below o c -> exists r,
    Ok (Some (c, [])) = Ok r /\
    match r with
    | None => forall x, In x (flat_map preorder roots) -> o <= n_start x
    | Some (m, ps) =>
        path roots ps m /\ n_start m < o /\
        Forall (fun x => n_start x < o /\ goes_below o x) ps /\
        exists front0 back, front ++ filter (before o) (preorder c) = front0 ++ m :: back /\
          (forall x, In x back -> In x (flat_map preorder (n_children m))) /\
          (back <> [] -> ~ goes_below o m)
    end).
  { intros G. exists (Some (c, [])). split; auto. split; [constructor; auto|]. split; auto. split; auto.
    exists front, (filter (before o) (flat_map preorder (n_children c))).
    rewrite (preorder_eq c). cbn [filter]. replace (before o c) with true by (unfold before; lia).
    repeat split; auto. intros x X. apply filter_In in X. tauto. }
  destruct (o <? n_end c) eqn:Lc; [apply GO; left; lia|].
  destruct (last_child c) as [lc|] eqn:LC.
  + destruct (n_end lc =? n_end c) eqn:Le.
    * apply GO. right. exists lc. split; auto. lia.
    * apply STOP. intros [Q|(lc' & Q1 & Q2)]; [lia|]. rewrite LC in Q1. inv Q1. lia.
  + apply STOP. intros [Q|(lc' & Q1 & Q2)]; [lia|]. congruence.
Qed.

(** ** find_root_at *)
Lemma find_root_at_spec roots o :
  match find_root_at roots o with
  | Some r => exists l1 l2, roots = l1 ++ r :: l2 /\ o <= n_end r /\ Forall (fun x => n_end x < o) l1
  | None => Forall (fun x => n_end x < o) roots
  end.
Proof.
  induction roots as [|r roots IH]; cbn [find_root_at]; [constructor|].
  destruct (o <=? n_end r) eqn:E.
  - exists [], roots. repeat split; auto. lia.
  - destruct (find_root_at roots o).
    + destruct IH as (l1 & l2 & -> & H1 & H2). exists (r :: l1), l2. repeat split; auto.
      constructor; auto. lia.
    + constructor; auto. lia.
Qed.
