(** * Nodes in document order; sorting of attributes. *)
From Verif Require Import Base Stream Scanner BaseFacts ScannerFacts ScanStep ScanProps ScanPanic ScanShape
  ScanResume Tree Parser ParseSpec ParseInv.
From Coq Require Import ZifyBool ZifyNat ZifyN Permutation Sorted.

(** All nodes of a tree, parents before children, in source order. *)
Fixpoint preorder (n : node) : list node :=
  match n with mkNode _ _ _ ch _ _ _ _ => n :: flat_map preorder ch end.
Lemma preorder_eq n : preorder n = n :: flat_map preorder (n_children n).
Proof. destruct n; reflexivity. Qed.

Lemma all_nodes_preorder P n : all_nodes P n <-> Forall P (preorder n).
Proof.
  revert n. apply node_induction. intros n IH. rewrite preorder_eq. split.
  - intros A. inv A. constructor; auto. rewrite Forall_flat_map.
    rewrite Forall_forall in *. intros x I. apply IH; auto.
  - intros F. inv F. constructor; auto. rewrite Forall_flat_map in H2.
    rewrite Forall_forall in *. intros x I. apply IH; auto.
Qed.
Lemma all_nodes_roots P l : Forall (all_nodes P) l <-> Forall P (flat_map preorder l).
Proof.
  rewrite Forall_flat_map. split; apply Forall_impl; intros n; apply all_nodes_preorder.
Qed.

(** ** Starts *)
Definition starts (n : node) : list nat := map n_start (preorder n).
Lemma starts_eq n : starts n = n_start n :: flat_map starts (n_children n).
Proof.
  unfold starts. rewrite preorder_eq. cbn [map]. f_equal.
  generalize (n_children n). intros l. induction l; cbn [flat_map map]; auto.
  rewrite map_app, IHl. auto.
Qed.
Fixpoint zstarts (c : node) (ps : list node) : list nat :=
  match ps with
  | [] => flat_map starts (n_children c)
  | p :: ps' => zstarts p ps' ++ starts c
  end.
Lemma zstarts_same c c' ps : n_start c' = n_start c -> n_children c' = n_children c ->
  zstarts c' ps = zstarts c ps.
Proof. intros H1 H2. destruct ps; cbn [zstarts]; rewrite ?starts_eq, H2, ?H1; auto. Qed.
Lemma zstarts_pop par c ps : zstarts (add_child par c) ps = zstarts c (par :: ps).
Proof.
  cbn [zstarts]. destruct ps; cbn [zstarts]; rewrite ?(starts_eq (add_child _ _)), ?(starts_eq par);
  cbn; rewrite flat_map_app; cbn [flat_map]; rewrite app_nil_r; auto.
  rewrite <- app_assoc. auto.
Qed.

Definition pstarts (p : pstate) := zstarts (cur p) (parents p).
Lemma pop_starts p p' : pop p = Ok p' -> pstarts p' = pstarts p.
Proof.
  unfold pop, pstarts. destruct (parents p) as [|par ps] eqn:E; [discriminate|].
  intros H. inv H. apply zstarts_pop.
Qed.
Lemma close_inner_starts k : forall p p', close_inner k p = Ok p' -> pstarts p' = pstarts p.
Proof.
  induction k as [|k IH]; intros p p' H; cbn [close_inner] in H; [inv H; auto|].
  apply bind_ok in H as (e & _ & H). apply bind_ok in H as (p1 & H1 & H).
  rewrite (IH _ _ H), (pop_starts _ _ H1). apply zstarts_same; auto.
Qed.
Lemma set_attr_same v a n n' : set_attr_value v a n = Ok n' ->
  n_start n' = n_start n /\ n_children n' = n_children n.
Proof.
  unfold set_attr_value. intros H. apply bind_ok in H as (x & _ & H). inv H. auto.
Qed.

Lemma pstep_starts U t cs void sc p p' : pstep U t cs void sc p = Ok p' ->
  pstarts p' = pstarts p ++ (if token_eqb (tok sc) StartTagOpen then [tok_off sc] else []).
Proof.
  intros H. unfold pstep in H.
  destruct (tok sc) eqn:T; cbn [token_eqb]; try (inv H; rewrite app_nil_r; reflexivity).
  - inv H. reflexivity.
  - rewrite app_nil_r. destruct (parents p) as [|par ps] eqn:E; [inv H; auto|].
    destruct (0 <? pos sc - tok_off sc).
    + cbn [upd_cur cur n_tag set_ste set_end] in H.
      destruct (n_tag (cur p)); [destruct (is_void_element _ _)|].
      * rewrite (pop_starts _ _ H). apply zstarts_same; auto.
      * inv H. apply zstarts_same; auto.
      * inv H. apply zstarts_same; auto.
    + rewrite (pop_starts _ _ H). apply zstarts_same; auto.
  - rewrite app_nil_r. destruct (parents p) as [|par ps] eqn:E; [inv H; auto|].
    rewrite (pop_starts _ _ H). apply zstarts_same; auto.
  - rewrite app_nil_r. apply bind_ok in H as (x & _ & H). inv H. apply zstarts_same; auto.
  - rewrite app_nil_r. destruct (find_open _ _ _ _ _); [|inv H; auto].
    apply bind_ok in H as (p1 & H1 & H). rewrite (pop_starts _ _ H), <- (close_inner_starts _ _ _ H1).
    apply zstarts_same; auto.
  - rewrite app_nil_r. apply bind_ok in H as (x & _ & H). inv H. reflexivity.
  - rewrite app_nil_r. destruct (pending p); [|inv H; auto].
    apply bind_ok in H as (x & H1 & H). inv H. apply set_attr_same in H1 as [? ?]. apply zstarts_same; auto.
  - rewrite app_nil_r. apply bind_ok in H as (x & _ & H). inv H. apply zstarts_same; auto.
  - rewrite app_nil_r. apply bind_ok in H as (x & _ & H). destruct (pending p); [|inv H; auto].
    apply bind_ok in H as (y & H1 & H). inv H. apply set_attr_same in H1 as [? ?]. apply zstarts_same; auto.
Qed.

Definition open_offsets (l : list token) : list nat :=
  map tk_off (filter (fun k => token_eqb (tk_type k) StartTagOpen) l).

Lemma loop_starts U t cs void fuel : forall sc p p' l f,
  parse_loop U t cs void fuel sc p = Ok p' -> tokens U t true cs fuel sc = Ok (l, f) ->
  pstarts p' = pstarts p ++ open_offsets l.
Proof.
  induction fuel as [|fuel IH]; intros sc p p' l f H T; cbn [parse_loop tokens] in *; [discriminate|].
  apply bind_ok in H as (sc' & S & H). rewrite S in T. cbn [bind] in T.
  destruct (token_eqb (tok sc') EOS).
  - inv H. inv T. rewrite app_nil_r. auto.
  - apply bind_ok in H as (p1 & H1 & H). apply bind_ok in T as ([l' f'] & T1 & T). inv T.
    rewrite (IH _ _ _ _ _ H T1), (pstep_starts _ _ _ _ _ _ _ H1), <- app_assoc. f_equal.
    unfold open_offsets. cbn [filter]. change (tk_type (token_of sc')) with (tok sc').
    destruct (token_eqb (tok sc') StartTagOpen); auto.
Qed.
Lemma close_all_starts t ps : forall c,
  flat_map starts (n_children (close_all t c ps)) = zstarts c ps.
Proof.
  induction ps as [|par ps IH]; intros c; cbn [close_all]; auto.
  rewrite IH, zstarts_pop. cbn [zstarts]. rewrite !starts_eq. auto.
Qed.

Lemma parse_starts U t cs void roots l f :
  parse U t cs void = Ok roots -> tokens U t true cs (scan_fuel t) (scanner_new 0 WithinContent) = Ok (l, f) ->
  map n_start (flat_map preorder roots) = open_offsets l.
Proof.
  unfold parse. intros H T. apply bind_ok in H as (p & H & Q). inv Q.
  apply (loop_starts _ _ _ _ _ _ _ _ _ _ H) in T. cbn [pstarts zstarts cur parents n_children node_new flat_map app] in T.
  rewrite <- T. unfold pstarts. rewrite <- (close_all_starts t).
  generalize (n_children (close_all t (cur p) (parents p))). intros r.
  induction r; cbn [flat_map map]; auto. rewrite map_app, IHr. auto.
Qed.

(** ** Sorting attributes *)
Definition off_le (a b : str * attribute) : Prop := a_off (snd a) <= a_off (snd b).
Definition off_lt (a b : str * attribute) : Prop := a_off (snd a) < a_off (snd b).

Lemma insert_perm x l : Permutation (x :: l) (insert_by_off x l).
Proof.
  induction l as [|y l IH]; cbn [insert_by_off]; auto.
  destruct (a_off (snd x) <=? a_off (snd y)); auto.
  rewrite perm_swap. auto.
Qed.
Lemma sort_perm l : Permutation l (sort_by_off l).
Proof.
  induction l as [|x l IH]; cbn [sort_by_off fold_right]; auto.
  rewrite <- insert_perm. auto.
Qed.
Lemma insert_sorted x l : StronglySorted off_le l -> StronglySorted off_le (insert_by_off x l).
Proof.
  induction 1 as [|y l S IH F]; cbn [insert_by_off].
  - repeat constructor.
  - destruct (a_off (snd x) <=? a_off (snd y)) eqn:E.
    + constructor; [constructor; auto|]. constructor; [unfold off_le; lia|].
      eapply Forall_impl; [|exact F]. unfold off_le in *. intros z Hz. lia.
    + constructor; auto. eapply Permutation_Forall; [apply insert_perm|].
      constructor; auto. unfold off_le. lia.
Qed.
Lemma sort_sorted l : StronglySorted off_le (sort_by_off l).
Proof.
  induction l as [|x l IH]; cbn [sort_by_off fold_right]; [constructor|]. apply insert_sorted. auto.
Qed.
Lemma sorted_strict l : StronglySorted off_le l -> NoDup (map (fun x => a_off (snd x)) l) -> StronglySorted off_lt l.
Proof.
  induction 1 as [|y l S IH F]; cbn [map]; intros N; [constructor|]. inv N. constructor; auto.
  rewrite Forall_forall in *. intros z Hz. specialize (F z Hz). unfold off_le, off_lt in *.
  enough (a_off (snd y) <> a_off (snd z)) by lia.
  intros Q. apply H1. rewrite Q. apply (in_map (fun x => a_off (snd x))). auto.
Qed.
(** A strictly sorted list is determined by its elements. *)
Lemma strict_unique l : forall l', StronglySorted off_lt l -> StronglySorted off_lt l' ->
  Permutation l l' -> l = l'.
Proof.
  induction l as [|x l IH]; intros l' S S' P.
  - apply Permutation_nil in P. auto.
  - destruct l' as [|y l']; [symmetry in P; apply Permutation_nil in P; discriminate|].
    inv S. inv S'. rewrite Forall_forall in *.
    assert (x = y).
    { assert (I1 : In x (y :: l')) by (eapply Permutation_in; [exact P|left; auto]).
      assert (I2 : In y (x :: l)) by (eapply Permutation_in; [symmetry; exact P|left; auto]).
      destruct I1 as [|I1]; auto. destruct I2 as [|I2]; auto.
      apply H4 in I1. apply H2 in I2. unfold off_lt in *. lia. }
    subst y. f_equal. apply IH; auto. eapply Permutation_cons_inv; eauto.
Qed.
