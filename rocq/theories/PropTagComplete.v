(** * Tag and quote completion (C40, C41) *)
From Verif Require Import SelectionRange Base BaseFacts Stream Scanner ScannerFacts ScanStep ScanProps ScanShape ScanResume ScanPanic Tree
  Parser ParseSpec ParseInv ParseOrder PropParse TreeFacts PropTree ParseEnd PropEnd TextDoc PropDoc ScanComplete
  ScanLocal SelAttr TokenLoop NodeScan DataManager PropData BuiltinData Entities Hover Completion.
From Coq Require Import ZifyBool ZifyNat ZifyN Sorted.

Definition opt_beqN (a b : option N) : bool :=
  match a, b with Some x, Some y => (x =? y)%N | None, None => true | _, _ => false end.

(** ** Trees *)
Definition inside (n m : node) : Prop := In n (flat_map preorder (n_children m)).
Lemma chain_disjoint l : forall a b x y, chain a l b -> In x l -> In y l ->
  x = y \/ n_end x <= n_start y \/ n_end y <= n_start x.
Proof.
  induction l as [|c l IH]; intros a b x y C X Y; [contradiction|]. destruct C as (C1 & C2 & C3).
  destruct X as [<-|X], Y as [<-|Y]; auto.
  - right. left. apply (chain_bounds _ _ _ _ C3) in Y. lia.
  - right. right. apply (chain_bounds _ _ _ _ C3) in X. lia.
  - eapply IH; eauto.
Qed.
Lemma path_inside l ps x : path l ps x -> forall m, In m ps -> inside x m.
Proof.
  induction 1 as [l n I|l r ps n I P IH]; intros m M; [contradiction|]. destruct M as [<-|M]; auto.
  unfold inside. apply path_in in P. tauto.
Qed.
Lemma path_ancestors l ps x : path l ps x -> wf_forest l -> forall m, In m (flat_map preorder l) -> inside x m -> In m ps.
Proof.
  induction 1 as [l n I|l r ps n I P IH]; intros W m M IN.
  - exfalso. destruct W as [(a & b & C) F]. rewrite Forall_forall in F.
    apply in_flat_map in M as (r & R & M). assert (A := F r R).
    assert (Am : all_nodes nested m).
    { clear - A M. revert r A M. apply (node_induction (fun r => all_nodes nested r -> In m (preorder r) -> all_nodes nested m)).
      intros r IH A M. rewrite preorder_eq in M. destruct M as [<-|M]; auto. apply in_flat_map in M as (c & C & M).
      inversion A; subst. rewrite Forall_forall in IH, H0. eauto. }
    pose proof (preorder_bounds _ A _ M) as B1. pose proof (preorder_bounds_strict _ _ Am IN) as B2.
    assert (n_start n < n_end n) by (specialize (F n I); inversion F; subst; destruct H; auto).
    destruct (chain_disjoint _ _ _ _ _ C R I) as [->|D]; lia.
  - assert (W' := W). destruct W' as [(a & b & C) F]. rewrite Forall_forall in F.
    apply in_flat_map in M as (r' & R & M). assert (A := F r' R). assert (A' := F r I).
    assert (Am : all_nodes nested m).
    { clear - A M. revert r' A M. apply (node_induction (fun r => all_nodes nested r -> In m (preorder r) -> all_nodes nested m)).
      intros r IH A M. rewrite preorder_eq in M. destruct M as [<-|M]; auto. apply in_flat_map in M as (c & C & M).
      inversion A; subst. rewrite Forall_forall in IH, H0. eauto. }
    pose proof (preorder_bounds _ A _ M) as B1. pose proof (preorder_bounds_strict _ _ Am IN) as B2.
    assert (NI : In n (flat_map preorder (n_children r))) by (apply path_in in P; tauto).
    pose proof (preorder_bounds_strict _ _ A' NI) as B3.
    assert (n_start n < n_end n).
    { apply in_flat_map in NI as (c & C' & NI). inversion A'; subst. rewrite Forall_forall in H0.
      pose proof (preorder_bounds _ (H0 c C') _ NI). lia. }
    destruct (chain_disjoint _ _ _ _ _ C R I) as [->|D]; [|lia].
    rewrite preorder_eq in M. destruct M as [<-|M]; [left; auto|]. right. apply IH; auto. apply wf_children; auto.
Qed.
(** Of the nodes on a path the ones further out start earlier. *)
Lemma path_order l ps x : path l ps x -> wf_forest l -> StronglySorted (fun a b => n_start b < n_start a) (x :: rev ps).
Proof.
  intros P W. assert (Q : StronglySorted (fun a b => n_start a < n_start b) (ps ++ [x])).
  { induction P as [l n I|l r ps n I P IH]; cbn [app]; [repeat constructor|].
    assert (A : all_nodes nested r) by (destruct W as [_ F]; rewrite Forall_forall in F; auto).
    constructor; [apply IH; apply wf_children; auto|].
    apply path_in in P as [P1 P2]. apply Forall_app. split.
    - eapply Forall_impl; [|exact P2]. intros y Y. apply (preorder_bounds_strict _ _ A Y).
    - constructor; auto. apply (preorder_bounds_strict _ _ A P1). }
  rewrite <- rev_unit.
  assert (R : forall (k : list node), StronglySorted (fun a b => n_start a < n_start b) k ->
     StronglySorted (fun a b => n_start b < n_start a) (rev k)).
  { clear. induction k as [|y k IH]; intros S; cbn [rev]; [constructor|]. inversion S; subst.
    specialize (IH H1). rewrite Forall_forall in H2.
    assert (F : Forall (fun z => n_start y < n_start z) (rev k)) by (apply Forall_forall; intros z Z; apply H2; apply in_rev; auto).
    clear - IH F. induction (rev k) as [|z r IHr]; cbn [app]; [repeat constructor|].
    inversion IH; subst. inversion F; subst. constructor; auto. apply Forall_app. auto. }
  apply R. exact Q.
Qed.
(** [find] on such a list. *)
Lemma find_first (f : node -> bool) (l : list node) y : find f l = Some y ->
  StronglySorted (fun a b => n_start b < n_start a) l ->
  forall m, In m l -> f m = true -> n_start m <= n_start y.
Proof.
  induction l as [|x l IH]; intros F S m M T; [contradiction|]. cbn [find] in F. inversion S; subst.
  destruct (f x) eqn:E.
  - apply Some_inj in F. subst x. destruct M as [<-|M]; auto. rewrite Forall_forall in H2. apply H2 in M. lia.
  - destruct M as [<-|M]; [congruence|]. eauto.
Qed.

(** The last child ends where its parent ends if some descendant does. *)
Lemma last_child_end n m : all_nodes nested n -> inside m n -> n_end m = n_end n ->
  exists lc, last_child n = Some lc /\ n_end lc = n_end n.
Proof.
  intros A IN E. inversion A; subst. destruct H as [H1 H2]. apply in_flat_map in IN as (c & C & IN).
  rewrite Forall_forall in H0. pose proof (preorder_bounds _ (H0 c C) _ IN) as B.
  pose proof (chain_bounds _ _ _ _ H2 C) as B'.
  unfold last_child. revert H2 C. clear H0 H1 A. generalize (S (n_start n)). generalize (n_children n).
  induction l as [|x l IH]; intros a H2 C; [contradiction|]. destruct H2 as (C1 & C2 & C3).
  destruct l as [|y l].
  - destruct C as [->|[]]. exists c. split; auto. lia.
  - destruct C as [->|C].
    + destruct C3 as (D1 & D2 & D3). apply chain_le in D3. lia.
    + destruct (IH _ C3 C) as (lc & L1 & L2). exists lc. split; auto.
Qed.

(** ** End tags in the token list *)
Lemma et_run_split t l e name q : In (e, name, q) (end_tags t l) ->
  exists l1 k l2 kc l3, l = l1 ++ k :: l2 ++ kc :: l3 /\ tk_type k = EndTagOpen /\ tk_off k = e /\
    tk_type kc = EndTagClose /\ tk_end kc = q /\ Forall (fun x => tk_type x <> EndTagOpen) l2.
Proof.
  unfold end_tags.
  assert (Q : (forall e, fst (fst (et_run t l)) = Some e -> exists l1 k l2, l = l1 ++ k :: l2 /\ tk_type k = EndTagOpen /\
      tk_off k = e /\ Forall (fun x => tk_type x <> EndTagOpen) l2) /\
    (forall e name q, In (e, name, q) (snd (et_run t l)) ->
      exists l1 k l2 kc l3, l = l1 ++ k :: l2 ++ kc :: l3 /\ tk_type k = EndTagOpen /\ tk_off k = e /\
      tk_type kc = EndTagClose /\ tk_end kc = q /\ Forall (fun x => tk_type x <> EndTagOpen) l2)).
  { clear. induction l as [|x l (IH1 & IH2)] using rev_ind; [split; [discriminate|contradiction]|].
    rewrite et_run_snoc. destruct (et_run t l) as [[o nm] acc]. cbn [fst snd] in *.
    assert (K1 : tk_type x <> EndTagOpen -> forall e, o = Some e -> exists l1 k l2, l ++ [x] = l1 ++ k :: l2 /\ tk_type k = EndTagOpen /\
      tk_off k = e /\ Forall (fun x => tk_type x <> EndTagOpen) l2).
    { intros N e E. destruct (IH1 e E) as (l1 & k & l2 & -> & K1 & K2 & K3). exists l1, k, (l2 ++ [x]).
      rewrite <- app_assoc. repeat split; auto. apply Forall_app. auto. }
    assert (K2 : forall e name q, In (e, name, q) acc ->
      exists l1 k l2 kc l3, l ++ [x] = l1 ++ k :: l2 ++ kc :: l3 /\ tk_type k = EndTagOpen /\ tk_off k = e /\
      tk_type kc = EndTagClose /\ tk_end kc = q /\ Forall (fun x => tk_type x <> EndTagOpen) l2).
    { intros e name q I. destruct (IH2 _ _ _ I) as (l1 & k & l2 & kc & l3 & -> & E2). exists l1, k, l2, kc, (l3 ++ [x]).
      split; auto. rewrite <- !app_assoc. cbn [app]. rewrite <- !app_assoc. reflexivity. }
    unfold et_step. destruct (tk_type x) eqn:TX; cbn [fst snd]; try (split; [apply K1; discriminate|exact K2]).
    - split; [|exact K2]. intros e E. apply Some_inj in E. exists l, x, []. repeat split; auto.
    - destruct o as [e0|]; cbn [fst snd]; [|split; [discriminate|exact K2]].
      split; [apply K1; discriminate|]. intros e name q I. apply in_app_iff in I as [I|[I|[]]]; [eapply K2; eauto|].
      inversion I; subst. destruct (IH1 e eq_refl) as (l1 & k & l2 & -> & E1 & E2 & E3). exists l1, k, l2, x, [].
      rewrite <- app_assoc. repeat split; auto. }
  destruct Q as [_ Q]. apply Q.
Qed.

Section Loops.
Variables (U : unicode) (d : textdoc) (cs : bool).
Notation t := (d_text d).
Hypothesis HU : Utf8 t.

Lemma ends_at_complete ty o m : forall sc r fuel, runs U t false cs sc (m ++ [r]) r -> tok r = ty -> pos r = o ->
  S (length m) <= fuel -> (do x <- scan U t false cs sc; ends_at_loop U d cs fuel ty o x) = Ok true.
Proof.
  induction m as [|x m IH]; intros sc r fuel R T P F; cbn [app] in R; apply runs_inv in R as (S & NE & R).
  - rewrite S. cbn [bind]. destruct fuel; [lia|]. cbn [ends_at_loop]. apply token_eqb_neq in NE. rewrite NE.
    apply token_eqb_eq in T. rewrite T. replace (pos r <=? o) with true by lia. replace (pos r =? o) with true by lia. reflexivity.
  - rewrite S. cbn [bind]. cbn [length] in F. destruct fuel; [lia|]. cbn [ends_at_loop]. apply token_eqb_neq in NE. rewrite NE.
    pose proof (runs_pos _ _ _ _ _ _ _ HU R). replace (pos x <=? o) with true by lia. cbn [negb andb].
    destruct (_ && _); auto. apply (IH x r); auto. lia.
Qed.
Lemma ends_at_sound ty o : forall fuel sc, (do x <- scan U t false cs sc; ends_at_loop U d cs fuel ty o x) = Ok true ->
  exists m r, runs U t false cs sc (m ++ [r]) r /\ tok r = ty /\ pos r = o.
Proof.
  induction fuel as [|fuel IH]; intros sc H; apply bind_ok in H as (x & S & H); [discriminate|].
  cbn [ends_at_loop] in H. destruct (token_eqb (tok x) EOS) eqn:NE; cbn [negb andb] in H; [discriminate|].
  apply token_eqb_neq in NE. destruct (pos x <=? o); [|discriminate].
  destruct (_ && _) eqn:E in H.
  - apply andb_true_iff in E as [E1 E2]. apply token_eqb_eq in E1. exists [], x.
    split; [cbn; constructor; auto; constructor|]. split; auto. lia.
  - apply IH in H as (m & r & R & Q). exists (x :: m), r. split; auto. cbn [app]. constructor; auto.
Qed.

(** Two runs from the same scanner over the same position. *)
Lemma runs_det : forall m sc m' r r' f f', runs U t false cs sc (m ++ [r]) f -> runs U t false cs sc (m' ++ [r']) f' ->
  (exists i, tok_off r <= i < pos r /\ tok_off r' <= i < pos r') -> m = m' /\ r = r'.
Proof.
  assert (AFT : forall sc m r f, runs U t false cs sc (m ++ [r]) f -> pos sc <= tok_off r).
  { intros sc m r f R. pose proof (runs_after U t cs HU _ _ _ R) as F. rewrite Forall_forall in F.
    specialize (F r ltac:(apply in_or_app; cbn; auto)). lia. }
  induction m as [|x m IH]; intros sc m' r r' f f' R R' (i & I1 & I2).
  - destruct m' as [|x' m'].
    + cbn [app] in *. apply runs_inv in R as (S & _). apply runs_inv in R' as (S' & _). rewrite S in S'. apply Ok_inj in S'. auto.
    + exfalso. cbn [app] in *. apply runs_inv in R as (S & _). apply runs_inv in R' as (S' & _ & R').
      rewrite S in S'. apply Ok_inj in S'. subst x'. apply AFT in R'. lia.
  - destruct m' as [|x' m'].
    + exfalso. cbn [app] in *. apply runs_inv in R as (S & _ & R). apply runs_inv in R' as (S' & _).
      rewrite S in S'. apply Ok_inj in S'. subst x. apply AFT in R. lia.
    + cbn [app] in *. apply runs_inv in R as (S & _ & R). apply runs_inv in R' as (S' & _ & R').
      rewrite S in S'. apply Ok_inj in S'. subst x'. destruct (IH _ _ _ _ _ _ R R') as [-> ->]; eauto.
Qed.
End Loops.

Lemma runs_prefix U t cs m z m2 sc f : runs U t false cs sc (m ++ z :: m2) f -> runs U t false cs sc (m ++ [z]) z.
Proof.
  revert sc. induction m as [|x m IH]; intros sc R; cbn [app] in *; apply runs_inv in R as (S & NE & R); constructor; auto. constructor.
Qed.

Section Main.
Variables (U : unicode) (d : textdoc) (cs : bool) (void : list str) (roots : list node) (l : list token).
Hypothesis HD : textdoc_ok d.
Hypothesis HP : parse U (d_text d) cs void = Ok roots.
Hypothesis HT : doc_tokens U (d_text d) cs = Ok l.
Notation t := (d_text d).
Let HU : Utf8 t := do_utf8 d HD.
Let TL : tiles 0 l (length t) := doc_tiles _ _ _ _ HU HT.
Let W : wf_forest roots := parsed_wf _ _ _ _ _ HU HP.

Lemma node_nested n : In n (doc_nodes roots) -> all_nodes nested n.
Proof.
  intros I. unfold doc_nodes in I. apply in_flat_map in I as (r & R & M). destruct W as [_ F]. rewrite Forall_forall in F.
  specialize (F r R). clear - F M. revert r F M.
  apply (node_induction (fun r => all_nodes nested r -> In n (preorder r) -> all_nodes nested n)).
  intros r IH A M. rewrite preorder_eq in M. destruct M as [<-|M]; auto. apply in_flat_map in M as (c & C & M).
  inversion A; subst. rewrite Forall_forall in IH, H0. eauto.
Qed.
Lemma lam n m : In n (doc_nodes roots) -> In m (doc_nodes roots) -> laminar n m.
Proof. apply laminar_nodes. exact W. Qed.
Lemma span n : In n (doc_nodes roots) -> span_ok t n.
Proof. intros I. destruct (C12_spans _ _ _ _ _ HU HP) as [_ SP]. rewrite Forall_forall in SP. auto. Qed.
Lemma inside_bounds n m : In m (doc_nodes roots) -> inside n m ->
  n_start m < n_start n /\ n_end n <= n_end m /\ forall e, n_ets m = Some e -> n_end n <= e.
Proof.
  intros I N. assert (A := node_nested m I). destruct (preorder_bounds_strict _ _ A N) as [B1 B2].
  repeat split; auto. intros e E. destruct (span m I) as (_ & _ & S3). rewrite E in S3. destruct (n_ste m); [|contradiction].
  destruct S3 as (_ & _ & _ & S3). apply in_flat_map in N as (c & C & N). pose proof (chain_bounds _ _ _ _ S3 C).
  inversion A; subst. rewrite Forall_forall in H1. pose proof (preorder_bounds c (H1 c C) n N). lia.
Qed.
Lemma same_start n m : In n (doc_nodes roots) -> In m (doc_nodes roots) -> n_start n = n_start m -> n = m.
Proof.
  intros N M E. destruct (span n N) as (S1 & _). destruct (span m M) as (S2 & _).
  destruct (lam n m N M) as [Q|[Q|[Q|[Q|Q]]]]; auto; try lia.
  - apply (inside_bounds _ _ M) in Q. lia.
  - apply (inside_bounds _ _ N) in Q. lia.
Qed.

(** What find_node_before finds. *)
Lemma found o x ps : find_node_before roots o = Ok (Some (x, ps)) ->
  path roots ps x /\ In x (doc_nodes roots) /\ n_start x < o /\ Forall (goes_below o) ps /\
  exists z, In z (doc_nodes roots) /\ n_start z < o /\
    (forall m, In m (doc_nodes roots) -> n_start m < o -> n_start m <= n_start z) /\
    (z = x \/ (inside z x /\ ~ goes_below o x)).
Proof.
  intros F. destruct (C24_find_node_before U t cs void roots o HU HP) as (r & F' & R). rewrite F in F'. apply Ok_inj in F'. subst r.
  destruct R as (P & L & (front & z & E & Z) & G). split; auto. split; [apply path_in in P; tauto|]. split; auto. split; auto.
  exists z. assert (IZ : In z (filter (fun m => n_start m <? o) (doc_nodes roots))) by (rewrite E; apply in_or_app; cbn; auto).
  apply filter_In in IZ as [IZ LZ]. split; auto. split; [lia|]. split; [|exact Z].
  intros m M LM. assert (IM : In m (filter (fun m => n_start m <? o) (doc_nodes roots))) by (apply filter_In; split; auto; lia).
  rewrite E in IM. apply in_app_iff in IM as [IM|[->|[]]]; auto.
  assert (SS : StronglySorted (fun a b => n_start a <= n_start b) (doc_nodes roots)).
  { unfold doc_nodes. destruct W as [(a & b & C) FW]. clear - C FW. revert a b C FW.
    assert (Q : forall k, Forall (all_nodes nested) k -> Forall (fun r => StronglySorted (fun a b => n_start a <= n_start b) (preorder r)) k ->
        forall a b, chain a k b -> StronglySorted (fun a b => n_start a <= n_start b) (flat_map preorder k) /\
          Forall (fun x => a <= n_start x) (flat_map preorder k)).
    { induction k as [|c k IH]; intros FA FS a b C; cbn [flat_map]; [repeat constructor|].
      inversion FA; subst. inversion FS; subst. destruct C as (C1 & C2 & C3). destruct (IH H2 H4 _ _ C3) as [I1 I2].
      pose proof (preorder_bounds _ H1) as B. split.
      - clear IH FA FS H4. induction (preorder c) as [|u v IHv]; cbn [app]; auto. inversion H3; subst. constructor.
        + apply IHv; auto. intros m M. apply B. cbn. auto.
        + apply Forall_app. split; auto. eapply Forall_impl; [|exact I2]. intros w Lw. specialize (B u (or_introl eq_refl)). cbn in Lw. lia.
      - apply Forall_app. split.
        + apply Forall_forall. intros u I. apply B in I. lia.
        + eapply Forall_impl; [|exact I2]. cbn. lia. }
    intros a b C FW. refine (proj1 (Q _ FW _ _ _ C)).
    eapply Forall_impl; [|exact FW]. clear - Q. cbn.
    apply (node_induction (fun r => all_nodes nested r -> StronglySorted (fun a b => n_start a <= n_start b) (preorder r))).
    intros r IH A. inversion A; subst. destruct H as [H1 H2].
    assert (FS : Forall (fun r => StronglySorted (fun a b => n_start a <= n_start b) (preorder r)) (n_children r)).
    { rewrite Forall_forall in *. auto. }
    destruct (Q _ H0 FS _ _ H2) as [I1 I2]. rewrite preorder_eq. constructor; auto.
    eapply Forall_impl; [|exact I2]. cbn. lia. }
  assert (SF : StronglySorted (fun a b => n_start a <= n_start b) (front ++ [z])).
  { rewrite <- E. clear - SS. induction SS as [|a r S IH F]; cbn [filter]; [constructor|].
    destruct (n_start a <? o); auto. constructor; auto. rewrite Forall_forall in *. intros x X. apply filter_In in X as [X _]. auto. }
  clear - SF IM. induction front as [|a front IH]; [contradiction|]. cbn [app] in SF. inversion SF; subst. destruct IM as [->|IM]; auto.
  rewrite Forall_forall in H2. apply H2. apply in_or_app. cbn. auto.
Qed.
Lemma found_none o : find_node_before roots o = Ok None -> forall m, In m (doc_nodes roots) -> o <= n_start m.
Proof.
  intros F. destruct (C24_find_node_before U t cs void roots o HU HP) as (r & F' & R). rewrite F in F'. apply Ok_inj in F'. subst r. exact R.
Qed.
Lemma found_total o : exists r, find_node_before roots o = Ok r.
Proof. destruct (C24_find_node_before U t cs void roots o HU HP) as (r & F' & R). eauto. Qed.
(** The last node that starts before the cursor is found if it does not end before it. *)
Lemma found_last o n : In n (doc_nodes roots) -> n_start n < o ->
  (forall m, In m (doc_nodes roots) -> n_start m < o -> n_start m <= n_start n) -> o <= n_end n ->
  exists ps, find_node_before roots o = Ok (Some (n, ps)).
Proof.
  intros I L LA E. destruct (found_total o) as ([[x ps]|] & F); [|apply found_none with (m := n) in F; auto; lia].
  exists ps. rewrite F. destruct (found _ _ _ F) as (P & IX & LX & G & z & IZ & LZ & LAZ & Z).
  assert (z = n). { apply same_start; auto. pose proof (LA z IZ LZ). pose proof (LAZ n I L). lia. }
  subst z. destruct Z as [->|[Z NG]]; auto. exfalso. apply NG.
  destruct (inside_bounds _ _ IX Z) as (B1 & B2 & _).
  destruct (Nat.lt_ge_cases o (n_end x)) as [Q|Q]; [left; auto|right].
  apply (last_child_end x n); auto; [apply node_nested; auto|lia].
Qed.

(** ** The scan of the service against the tokens of the document *)
Lemma tiles_cover_inj k : forall a b x y i, tiles a k b -> In x k -> In y k ->
  tk_off x <= i < tk_end x -> tk_off y <= i < tk_end y -> x = y.
Proof.
  induction k as [|c k IH]; intros a b x y i T X Y LX LY; [contradiction|]. destruct T as (T1 & T2 & T3 & T4).
  destruct X as [<-|X], Y as [<-|Y]; auto.
  - apply (tiles_bounds _ _ _ _ T4) in Y. lia.
  - apply (tiles_bounds _ _ _ _ T4) in X. lia.
  - eapply IH; eauto.
Qed.
(** No tag is left unfinished between [a] and [o]. *)
Definition whole (a o : nat) : Prop := forall k, In k l -> a <= tk_off k < o -> tk_off k < tk_end k.
Lemma run_to n i : In n (doc_nodes roots) -> n_start n <= i < length t -> whole (n_start n) (i + 1) ->
  exists pre m r rest, l = pre ++ map token_of (m ++ [r]) ++ rest /\ tok_off r <= i < pos r /\
    runs U t false cs (scanner_new (n_start n) WithinContent) (m ++ [r]) r.
Proof.
  intros I L H.
  destruct (content_runs U t cs void roots HU HP n l i I HT L (fun k K1 K2 => H k K1 ltac:(lia)))
    as (pre & op & l1 & k & l2 & m & z & E & K1 & K2 & O1 & O2 & O3 & R & M).
  assert (TI := runs_tiles U t cs HU _ _ _ R). rewrite M in TI. cbn [pos scanner_new] in TI.
  assert (BI : n_start n <= i < pos z).
  { apply (tiles_bounds _ _ _ _ TI) in K1. lia. }
  destruct (cut_at i _ _ _ TI BI) as (u1 & k' & u2 & EU & _ & K').
  rewrite EU in M. apply map_eq_app in M as (m1 & m2 & -> & M1 & M2). destruct m2 as [|r m2]; [discriminate|].
  cbn [map] in M2. injection M2 as M2 M3. exists pre, m1, r, (u2 ++ l2). split; [|split].
  - rewrite E, EU, map_app, M1. cbn [map]. rewrite M2. rewrite <- !app_assoc. reflexivity.
  - subst k'. exact K'.
  - replace (m1 ++ r :: m2) with ((m1 ++ [r]) ++ m2) in R by (rewrite <- app_assoc; auto).
    apply runs_app in R as (g & R & _). assert (R' := R). apply runs_app in R' as (g' & _ & R').
    apply runs_inv in R' as (_ & _ & R'). inversion R'; subst. auto.
Qed.
Lemma run_in n m r : In n (doc_nodes roots) -> runs U t false cs (scanner_new (n_start n) WithinContent) (m ++ [r]) r ->
  whole (n_start n) (pos r) ->
  exists pre rest, l = pre ++ map token_of (m ++ [r]) ++ rest.
Proof.
  intros I R H. pose proof (runs_after U t cs HU _ _ _ R) as F. rewrite Forall_forall in F.
  specialize (F r ltac:(apply in_or_app; cbn; auto)). cbn [pos scanner_new] in F.
  destruct (run_to n (pos r - 1) I) as (pre & m' & r' & rest & E & C & R'); [lia|intros k K L; apply H; auto; lia|].
  destruct (runs_det U d cs HU m _ m' r r' _ _ R R') as [-> ->]; [exists (pos r - 1); lia|]. eauto.
Qed.
Lemma run_of n k : In n (doc_nodes roots) -> In k l -> n_start n <= tk_off k < tk_end k -> whole (n_start n) (tk_end k) ->
  exists m r, runs U t false cs (scanner_new (n_start n) WithinContent) (m ++ [r]) r /\ token_of r = k.
Proof.
  intros I K L H. pose proof (tiles_bounds _ _ _ _ TL K) as B.
  destruct (run_to n (tk_end k - 1) I) as (pre & m & r & rest & E & C & R); [lia|intros k' K' L'; apply H; auto; lia|].
  exists m, r. split; auto. apply (tiles_cover_inj l 0 (length t) _ _ (tk_end k - 1)); auto.
  - rewrite E. apply in_or_app. right. apply in_or_app. left. apply in_map. apply in_or_app. cbn. auto.
  - lia.
Qed.
Lemma ends_at_of_run n ty o m r : In n (doc_nodes roots) ->
  runs U t false cs (scanner_new (n_start n) WithinContent) (m ++ [r]) r -> tok r = ty -> pos r = o ->
  ends_at U d cs (n_start n) ty o = Ok true.
Proof.
  intros I R T P. unfold ends_at. apply (ends_at_complete U d cs HU ty o m _ r); auto.
  destruct (span n I) as (S1 & S2 & _). pose proof (runs_length U t cs HU _ _ _ R ltac:(cbn; lia)) as Q.
  rewrite app_length in Q. cbn [length] in Q. unfold scan_fuel. lia.
Qed.
Lemma ends_at_iff n ty o : In n (doc_nodes roots) -> whole (n_start n) o ->
  ends_at U d cs (n_start n) ty o = Ok true <->
  exists k, In k l /\ tk_type k = ty /\ tk_end k = o /\ n_start n <= tk_off k < o.
Proof.
  intros I H. split.
  - intros E. apply (ends_at_sound U d cs) in E as (m & r & R & T & P).
    destruct (run_in n m r I R) as (pre & rest & E); [rewrite P; auto|].
    pose proof (runs_after U t cs HU _ _ _ R) as F. rewrite Forall_forall in F.
    specialize (F r ltac:(apply in_or_app; cbn; auto)). cbn [pos scanner_new] in F.
    exists (token_of r). split; [|cbn; repeat split; auto; lia].
    rewrite E. apply in_or_app. right. apply in_or_app. left. apply in_map. apply in_or_app. cbn. auto.
  - intros (k & K & T & E & L). destruct (run_of n k I K) as (m & r & R & Q); [lia|rewrite E; auto|].
    eapply ends_at_of_run; eauto; [rewrite <- T, <- Q|rewrite <- E, <- Q]; reflexivity.
Qed.

(** ** Tokens of the document *)
Lemma doc_runs : exists m z, runs U t true cs (scanner_new 0 WithinContent) m z /\ map token_of m = l.
Proof.
  assert (T := HT). unfold doc_tokens in T. apply bind_ok in T as ([l' f] & T & Q). apply Ok_inj in Q. subst l'.
  rewrite <- (app_nil_r l) in T. apply tokens_runs in T as (m & z & _ & R & M & _). eauto.
Qed.
Lemma doc_step k : In k l -> exists a b, scan U t true cs a = Ok b /\ tok b <> EOS /\ token_of b = k.
Proof.
  intros K. destruct doc_runs as (m & z & R & M). rewrite <- M in K. apply in_map_iff in K as (b & <- & B).
  apply in_split in B as (m1 & m2 & ->). apply runs_app in R as (g & _ & R). apply runs_inv in R as (S & NE & _). eauto.
Qed.
Lemma doc_next l1 k k' l2 : l = l1 ++ k :: k' :: l2 -> exists a b, token_of a = k /\ scan U t true cs a = Ok b /\
  tok b <> EOS /\ token_of b = k'.
Proof.
  intros E. destruct doc_runs as (m & z & R & M). rewrite E in M. apply map_eq_app in M as (m1 & m2 & -> & _ & M).
  destruct m2 as [|a [|b m2]]; try discriminate. cbn [map] in M. injection M as M1 M2 _.
  apply runs_app in R as (g & _ & R). apply runs_inv in R as (_ & _ & R). apply runs_inv in R as (S & NE & _). eauto 6.
Qed.
(** '</' *)
Lemma end_open_token k : In k l -> tk_type k = EndTagOpen -> tk_end k = tk_off k + 2 /\ tk_state k = AfterOpeningEndTag.
Proof.
  intros K T. destruct (doc_step k K) as (a & b & S & NE & <-). apply scan_outcome in S; auto. cbn in *.
  inversion S; subst; cbn in *; try discriminate; auto. inversion H1; subst; discriminate.
Qed.
Lemma after_end_open k k' : In k l -> tk_type k = EndTagOpen -> In k' l -> tk_type k' = EndTagOpen -> tk_off k' <> tk_end k.
Proof.
  intros K T K' T' E. destruct (end_open_token k K T) as [E1 E2]. destruct (end_open_token k' K' T') as [E1' _].
  apply in_split in K as (l1 & l2 & EL). assert (TT := TL). rewrite EL in TT. apply tiles_app in TT as (a & A1 & A2).
  cbn [tiles] in A2. destruct A2 as (A2 & A3 & A4 & A5).
  rewrite EL in K'. apply in_app_iff in K' as [K'|[<-|K']].
  - apply (tiles_bounds _ _ _ _ A1) in K'. lia.
  - lia.
  - destruct l2 as [|k1 l2]; [contradiction|]. destruct (doc_next _ _ _ _ EL) as (u & v & U1 & S & NE & V).
    apply scan_outcome in S; auto.
    assert (SU : st u = AfterOpeningEndTag) by (rewrite <- E2, <- U1; reflexivity).
    assert (PU : pos u = tk_end k) by (rewrite <- U1; reflexivity).
    cbn [tiles] in A5. destruct A5 as (A5 & A6 & A7 & A8).
    assert (Q : tk_type k1 <> EndTagOpen /\ tk_off k1 < tk_end k1).
    { subst k1. pose proof (outcome_progress _ _ _ _ _ _ S) as (P1 & P2). cbn [token_of tk_type tk_off tk_end].
      inversion S; subst; cbn [finish tok tok_off pos] in *; try congruence;
        try (match goal with C : content_like _ _ |- _ => destruct C as [C|[[C _]|[C _]]]; congruence end);
        try (split; [discriminate|]; destruct P2 as [(? & _)|[(_ & ? & _)|(? & ? & _)]]; [congruence|lia|];
             match goal with Q : _ = StartTagClose \/ _ |- _ => destruct Q; discriminate | _ => idtac end; fail).
      - split; [discriminate|lia].
      - inversion H0; subst; congruence. }
    destruct Q as [Q1 Q2]. destruct K' as [<-|K']; [contradiction|]. apply (tiles_bounds _ _ _ _ A8) in K'. lia.
Qed.

(** '>' of a start tag: the tag's node. *)
Lemma close_step emit a b : scan U t emit cs a = Ok b -> tok b = StartTagClose -> in_tag (st a) = true /\ in_tag (st b) = false.
Proof.
  intros S T. apply scan_outcome in S; auto. inversion S; subst; cbn [finish tok st] in *; try discriminate.
  assert (I : in_tag (st a) = true) by (inversion H0; subst; match goal with E : st _ = _ |- _ => rewrite E; auto end).
  split; auto. inversion H1; subst; cbn [finish tok st] in *; try discriminate; auto.
  unfold after_close. repeat (match goal with |- context [if ?b then _ else _] => destruct b | |- context [match ?b with _ => _ end] => destruct b end; auto).
Qed.
Lemma in_tag_runs m1 : forall sc g, runs U t true cs sc m1 g -> in_tag (st g) = true ->
  (exists pre op ks, map token_of m1 = pre ++ op :: ks /\ tk_type op = StartTagOpen /\
     Forall (fun k => in_tag (tk_state k) = true /\ tk_type k <> StartTagOpen) ks) \/
  (in_tag (st sc) = true /\ Forall (fun k => in_tag (tk_state k) = true /\ tk_type k <> StartTagOpen) (map token_of m1)).
Proof.
  induction m1 as [|x m1 IH]; intros sc g R G.
  - inversion R; subst. right. split; auto. constructor.
  - apply runs_inv in R as (S & NE & R). destruct (IH _ _ R G) as [(pre & op & ks & E & O & F)|[It F]].
    + left. exists (token_of x :: pre), op, ks. cbn [map app]. rewrite E. auto.
    + destruct (token_eqb (tok x) StartTagOpen) eqn:TX.
      * apply token_eqb_eq in TX. left. exists [], (token_of x), (map token_of m1). auto.
      * apply token_eqb_neq in TX. right. destruct (in_tag_step U t cs HU _ _ _ S It) as [|Q]; [congruence|]. split; auto.
        cbn [map]. constructor; auto.
Qed.
Lemma open_end op : In op l -> tk_type op = StartTagOpen -> tk_end op = tk_off op + 1.
Proof.
  intros K T. destruct (doc_step op K) as (a & b & S & NE & <-). apply scan_outcome in S; auto. cbn in *.
  inversion S; subst; cbn in *; try discriminate; auto. inversion H1; subst; discriminate.
Qed.
Lemma open_unique pre op r pre' op' r' : l = pre ++ op :: r -> l = pre' ++ op' :: r' ->
  tk_type op = StartTagOpen -> tk_type op' = StartTagOpen -> tk_off op = tk_off op' -> pre = pre' /\ op = op' /\ r = r'.
Proof.
  intros E E' T T' O.
  assert (L1 : tk_end op = tk_off op + 1) by (apply open_end; auto; rewrite E; apply in_or_app; cbn; auto).
  assert (L2 : tk_end op' = tk_off op' + 1) by (apply open_end; auto; rewrite E'; apply in_or_app; cbn; auto).
  assert (A := TL). rewrite E in A. assert (B := TL). rewrite E' in B.
  apply tiles_app in A as (a & A1 & A2). apply tiles_app in B as (b & B1 & B2). cbn [tiles] in A2, B2.
  rewrite E in E'. destruct (app_split_after _ _ _ _ _ _ E') as [(q & Q)|[Q|(q & Q)]]; auto; exfalso.
  - assert (X : In op pre') by (rewrite Q; apply in_or_app; cbn; auto). apply (tiles_bounds _ _ _ _ B1) in X. lia.
  - assert (X : In op' pre) by (rewrite Q; apply in_or_app; cbn; auto). apply (tiles_bounds _ _ _ _ A1) in X. lia.
Qed.
Lemma node_open n : In n (doc_nodes roots) -> exists op, In op l /\ tk_type op = StartTagOpen /\ tk_off op = n_start n.
Proof.
  intros I. pose proof (C13_nodes_are_open_tags _ _ _ _ _ _ HU HT HP) as C.
  assert (X : In (n_start n) (map n_start (doc_nodes roots))) by (apply in_map; auto). rewrite C in X.
  apply in_map_iff in X as (op & O & X). apply filter_In in X as [X T]. apply token_eqb_eq in T. eauto.
Qed.
(** A token in a start tag belongs to a node; that node is the last to start before the token's end. *)
Lemma in_tag_node l1 k l2 : l = l1 ++ k :: l2 -> (exists a b, runs U t true cs (scanner_new 0 WithinContent) a b /\
    map token_of a = l1 /\ in_tag (st b) = true) -> tk_type k <> StartTagOpen ->
  exists n pre op ks, In n (doc_nodes roots) /\ l1 = pre ++ op :: ks /\ tk_type op = StartTagOpen /\ tk_off op = n_start n /\
    Forall (fun k => in_tag (tk_state k) = true /\ tk_type k <> StartTagOpen) ks /\ n_start n < tk_off k /\
    forall m, In m (doc_nodes roots) -> n_start m < tk_end k -> n_start m <= n_start n.
Proof.
  intros E (m1 & g & R & M & G) NK. destruct (in_tag_runs _ _ _ R G) as [(pre & op & ks & E1 & O & F)|[Q _]]; [|discriminate].
  rewrite M in E1. assert (Io : In op l) by (rewrite E, E1; apply in_or_app; left; apply in_or_app; cbn; auto).
  pose proof (C13_nodes_are_open_tags _ _ _ _ _ _ HU HT HP) as C.
  assert (I : In (tk_off op) (map n_start (doc_nodes roots))).
  { rewrite C. apply in_map. apply filter_In. split; auto. rewrite O. reflexivity. }
  apply in_map_iff in I as (n & N & I). exists n, pre, op, ks. repeat (split; auto).
  - assert (A := TL). rewrite E, E1 in A. apply tiles_app in A as (a & A1 & A2). apply tiles_app in A1 as (b & B1 & B2).
    cbn [tiles] in A2, B2. pose proof (open_end op Io O). destruct B2 as (B2 & B3 & B4 & B5). apply tiles_le in B5. lia.
  - intros m Im Lm. destruct (node_open m Im) as (om & X & TX & OX). rewrite <- OX in *. rewrite N.
    rewrite E, E1 in X. assert (A := TL). rewrite E, E1 in A. apply tiles_app in A as (a & A1 & A2). apply tiles_app in A1 as (b & B1 & B2).
    cbn [tiles] in A2, B2. apply in_app_iff in X as [X|[X|X]].
    + apply in_app_iff in X as [X|[X|X]].
      * apply (tiles_bounds _ _ _ _ B1) in X. lia.
      * subst om. lia.
      * rewrite Forall_forall in F. apply F in X. tauto.
    + congruence.
    + destruct A2 as (_ & _ & _ & A2). apply (tiles_bounds _ _ _ _ A2) in X. lia.
Qed.
Lemma before_token l1 k l2 : l = l1 ++ k :: l2 -> exists a g b, runs U t true cs (scanner_new 0 WithinContent) a g /\
  map token_of a = l1 /\ scan U t true cs g = Ok b /\ token_of b = k /\ tok b <> EOS.
Proof.
  intros E. destruct doc_runs as (m & z & R & M). rewrite E in M. apply map_eq_app in M as (m1 & m2 & -> & M1 & M2).
  destruct m2 as [|b m2]; [discriminate|]. cbn [map] in M2. injection M2 as M2 _.
  apply runs_app in R as (g & R1 & R2). apply runs_inv in R2 as (S & NE & _). exists m1, g, b. auto.
Qed.
Lemma close_node k : In k l -> tk_type k = StartTagClose -> tk_off k < tk_end k ->
  exists n, In n (doc_nodes roots) /\ n_start n < tk_off k /\ n_ste n = Some (tk_end k) /\
    forall m, In m (doc_nodes roots) -> n_start m < tk_end k -> n_start m <= n_start n.
Proof.
  intros K T NE. apply in_split in K as (l1 & l2 & E). destruct (before_token _ _ _ E) as (a & g & b & R & M & S & B & _).
  destruct (close_step _ _ _ S) as [S1 S2]; [rewrite <- T, <- B; reflexivity|].
  destruct (in_tag_node l1 k l2 E) as (n & pre & op & ks & I & E1 & O1 & O2 & F & LT & LA); [eauto|congruence|].
  exists n. split; auto. split; auto. split; auto.
  destruct (node_facts _ _ _ _ _ HU HP) as (l' & T' & NF). rewrite HT in T'. apply Ok_inj in T'. subst l'.
  destruct (NF n I). destruct ok_start as (pre' & op' & ks' & post & TS & P1 & P2 & P3 & _ & P4 & _ & _ & P5).
  assert (E2 : l = pre ++ op :: (ks ++ k :: l2)) by (rewrite E, E1, <- app_assoc; auto).
  destruct (open_unique _ _ _ _ _ _ E2 TS O1 P1) as (_ & _ & Q); [congruence|].
  rewrite P5. assert (KF : in_tag (tk_state k) = false) by (rewrite <- B; exact S2).
  assert (post = k :: l2).
  { clear - Q F P3 P4 KF. revert ks' Q P3. induction ks as [|x ks IH]; intros [|y ks'] Q P3; cbn [app] in Q.
    - auto.
    - injection Q as Q' Q. subst y. inversion P3; subst. congruence.
    - destruct post as [|z post]; [discriminate|]. injection Q as <- Q. inversion F; subst. destruct H1.
      rewrite (P4 x _ eq_refl) in H. discriminate.
    - injection Q as <- Q. inversion F; subst. inversion P3; subst. apply (IH H2 ks'); auto. }
  subst post. cbn [ste_of]. rewrite T. replace (tk_off k <? tk_end k) with true by lia. reflexivity.
Qed.

(** ** '/': the innermost open element *)
Lemma tag_exit a b : scan U t true cs a = Ok b -> tok b <> EOS -> in_tag (st a) = true -> in_tag (st b) = false ->
  tok b = StartTagClose \/ tok b = StartTagSelfClose.
Proof.
  intros S NE IA IB. apply scan_outcome in S; auto.
  inversion S; subst; cbn [finish tok st reset set_space set_last_tag set_last_type] in *; try discriminate; try congruence;
    try (repeat match goal with E : st _ = _ |- _ => rewrite E in IA; discriminate
                           | E : _ \/ _ |- _ => destruct E | E : _ /\ _ |- _ => destruct E | C : content_like _ _ |- _ => unfold content_like in C end; fail).
  assert (I : in_tag (st sc1) = true) by (inversion H0; subst; cbn [st set_last_attr set_space set_last_tag set_last_type reset] in *; auto).
  inversion H1; subst; cbn [finish tok st set_space set_last_attr no_attr] in *; auto; first [discriminate IB|congruence].
Qed.
Lemma ste_before k m : In k l -> tk_type k = EndTagOpen -> whole 0 (tk_end k) -> In m (doc_nodes roots) -> n_start m < tk_end k ->
  exists s, n_ste m = Some s /\ n_start m < s /\ s <= tk_off k.
Proof.
  intros K T H I L. destruct (end_open_token k K T) as [E1 E2].
  destruct (node_facts _ _ _ _ _ HU HP) as (l' & T' & NF). rewrite HT in T'. apply Ok_inj in T'. subst l'.
  destruct (NF m I). destruct ok_start as (pre & op & ks & post & TS & P1 & P2 & P3 & _ & P4 & _ & _ & P5).
  assert (A := TL). rewrite TS in A. apply tiles_app in A as (a & A1 & A2). cbn [tiles] in A2. destruct A2 as (A2 & A3 & A4 & A5).
  apply tiles_app in A5 as (b & B1 & B2). assert (Op : In op l) by (rewrite TS; apply in_or_app; cbn; auto).
  pose proof (open_end op Op P1).
  assert (KP : In k post).
  { rewrite TS in K. apply in_app_iff in K as [K|[K|K]].
    - apply (tiles_bounds _ _ _ _ A1) in K. lia.
    - congruence.
    - apply in_app_iff in K as [K|K]; auto. rewrite Forall_forall in P3. apply P3 in K. rewrite E2 in K. discriminate. }
  destruct post as [|c r]; [contradiction|]. cbn [tiles] in B2. destruct B2 as (B2 & B3 & B4 & B5).
  assert (EX : tk_type c = StartTagClose \/ tk_type c = StartTagSelfClose).
  { assert (Q : exists l1 c0, l = l1 ++ c0 :: c :: r /\ in_tag (tk_state c0) = true).
    { destruct ks as [|x ks _] using rev_ind.
      - exists pre, op. split; auto.
        destruct (doc_step op Op) as (u & v & S & NE & <-). apply scan_outcome in S; auto. cbn in *.
        inversion S; subst; cbn in *; try discriminate; auto. match goal with Q : tag_outcome _ _ _ _ _ _ |- _ => inversion Q; subst; discriminate end.
      - exists (pre ++ op :: ks), x. rewrite TS. split; [rewrite <- !app_assoc; reflexivity|].
        rewrite Forall_app in P3. destruct P3 as [_ P3]. inversion P3; auto. }
    destruct Q as (l1 & c0 & Q & Q0). destruct (doc_next _ _ _ _ Q) as (u & v & U1 & S & NE & V).
    specialize (P4 c r eq_refl). rewrite <- V in P4 |- *. rewrite <- U1 in Q0. apply (tag_exit u v); auto. }
  assert (c <> k) by (intros ->; destruct EX; congruence). destruct KP as [KP|KP]; [congruence|].
  apply (tiles_bounds _ _ _ _ B5) in KP as (KP & _).
  assert (NE : tk_off c < tk_end c) by (apply H; [rewrite TS; apply in_or_app; right; right; apply in_or_app; cbn; auto|lia]).
  apply tiles_le in B1. exists (tk_end c). split; [|lia]. rewrite P5. cbn [ste_of].
  replace (tk_off c <? tk_end c) with true by lia. destruct EX as [-> | ->]; reflexivity.
Qed.
Lemma end_tag_long e name q : end_tag_written U t e name q -> e + 2 < q.
Proof.
  intros (_ & p & WS & R). destruct WS as [WS _]. destruct name as [x|].
  - destruct R as (p1 & p2 & NT & _ & W2 & D). destruct W2 as [W2 _]. destruct NT as (c & r & SC & SE & _).
    destruct (Nat.lt_ge_cases p p1) as [|Q]; [lia|]. exfalso. unfold sub in SE. replace (p1 - p) with 0 in SE by lia. cbn [firstn] in SE.
    rewrite encode_cons in SE. cbn [forallb] in SC. apply andb_true_iff in SC as [SC _]. apply encode1_nonempty in SC.
    apply (f_equal (@length _)) in SE. rewrite app_length in SE. cbn [length] in SE. lia.
  - destruct R as (_ & p2 & D). lia.
Qed.
(** No '</' between the '</' of an end tag and its end. *)
Lemma between_tags k m e : In k l -> tk_type k = EndTagOpen -> In m (doc_nodes roots) -> n_ets m = Some e ->
  tk_off k <= e \/ n_end m <= tk_off k.
Proof.
  intros K T I E. destruct (C16_only_end_tags U t cs void l roots HU HT HP m I) as [C _]. destruct (C e E) as (name & C1).
  apply et_run_split in C1 as (l1 & k1 & l2 & kc & l3 & EL & T1 & O1 & T2 & O2 & F).
  assert (A := TL). rewrite EL in A. apply tiles_app in A as (a & A1 & A2). cbn [tiles] in A2. destruct A2 as (A2 & A3 & A4 & A5).
  apply tiles_app in A5 as (b & B1 & B2). cbn [tiles] in B2. destruct B2 as (B2 & B3 & B4 & B5).
  rewrite EL in K. apply in_app_iff in K as [K|[K|K]].
  - apply (tiles_bounds _ _ _ _ A1) in K. lia.
  - subst k1. lia.
  - apply in_app_iff in K as [K|[K|K]].
    + rewrite Forall_forall in F. apply F in K. contradiction.
    + congruence.
    + apply (tiles_bounds _ _ _ _ B5) in K. lia.
Qed.
Lemma ets_token m e : In m (doc_nodes roots) -> n_ets m = Some e ->
  e + 2 < n_end m /\ n_closed m = true /\ exists k, In k l /\ tk_type k = EndTagOpen /\ tk_off k = e.
Proof.
  intros I E. destruct (C15_end_tags _ _ _ _ _ _ _ HU HP I E) as (C & name & Wr & _). apply end_tag_long in Wr. split; auto. split; auto.
  destruct (C16_only_end_tags U t cs void l roots HU HT HP m I) as [C1 _]. destruct (C1 e E) as (nm & C2).
  apply et_run_split in C2 as (l1 & k1 & l2 & kc & l3 & EL & T1 & O1 & _). exists k1. split; auto. rewrite EL. apply in_or_app. cbn. auto.
Qed.
(** An EndTagOpen of another end tag is clear of [k]. *)
Lemma ets_clear k m e : In k l -> tk_type k = EndTagOpen -> In m (doc_nodes roots) -> n_ets m = Some e ->
  e = tk_off k \/ e + 2 <= tk_off k \/ tk_end k < e.
Proof.
  intros K T I E. destruct (ets_token m e I E) as (_ & _ & k1 & K1 & T1 & O1).
  destruct (end_open_token k K T) as [L _]. destruct (end_open_token k1 K1 T1) as [L1 _].
  destruct (Nat.eq_dec e (tk_off k)) as [|N]; auto.
  assert (NN : e <> tk_end k) by (subst e; apply after_end_open; auto).
  destruct (Nat.le_gt_cases (e + 2) (tk_off k)) as [|Q1]; auto.
  destruct (Nat.lt_ge_cases (tk_end k) e) as [|Q2]; auto. exfalso.
  destruct (Nat.lt_ge_cases e (tk_off k)) as [Q3|Q3].
  - apply N. rewrite <- O1. f_equal. apply (tiles_cover_inj l 0 (length t) _ _ (tk_off k) TL); auto; lia.
  - apply N. rewrite <- O1. f_equal. apply (tiles_cover_inj l 0 (length t) _ _ e TL); auto; lia.
Qed.

(** The element an end tag written at [e] is wanted for: the innermost one open there,
    other than one that this very end tag already closes. *)
Definition innermost_open (e : nat) (y : node) : Prop :=
  In y (doc_nodes roots) /\ PropEnd.open_at e y /\ n_ets y <> Some e /\
  forall m, In m (doc_nodes roots) -> PropEnd.open_at e m -> n_ets m <> Some e -> n_start m <= n_start y.

Lemma slash_in o x ps y : find_node_before roots o = Ok (Some (x, ps)) -> In y (x :: rev ps) -> In y (doc_nodes roots) /\ n_start y < o /\ (y = x \/ In y ps).
Proof.
  intros F Y. destruct (found _ _ _ F) as (P & IX & LX & G & _). destruct Y as [<-|Y]; auto. apply in_rev in Y.
  pose proof (path_in _ _ _ P) as [_ PI]. rewrite Forall_forall in PI. assert (IY := PI y Y). repeat split; auto.
  pose proof (path_inside _ _ _ P y Y) as IN. apply inside_bounds in IN; auto. lia.
Qed.
Section Slash.
Variables (k : token) (o : nat) (x : node) (ps : list node).
Hypothesis K : In k l.
Hypothesis KT : tk_type k = EndTagOpen.
Hypothesis KE : tk_end k = o.
Hypothesis WH : whole 0 o.
Hypothesis F : find_node_before roots o = Ok (Some (x, ps)).
Lemma slash_open y : In y (x :: rev ps) -> unclosed o y = true -> PropEnd.open_at (tk_off k) y /\ n_ets y <> Some (tk_off k).
Proof.
  intros Y UC. destruct (slash_in o x ps y F Y) as (IY & LY & PY). destruct (end_open_token k K KT) as [E1 _].
  destruct (found _ _ _ F) as (P & IX & LX & G & _).
  destruct (ste_before k y K KT ltac:(rewrite KE; auto) IY ltac:(lia)) as (s & S1 & S2 & S3).
  destruct (C17_closed _ _ _ _ _ _ _ HU HT HP IY) as (_ & _ & NC).
  unfold unclosed in UC. destruct (n_closed y) eqn:CY; cbn [negb orb] in UC.
  - destruct (n_ets y) as [e|] eqn:EY; [|discriminate]. destruct (ets_token y e IY EY) as (L & _).
    split; [|intros Q; injection Q as Q; lia]. exists s. repeat split; auto. left. lia.
  - rewrite (NC eq_refl). split; [|discriminate]. exists s. repeat split; auto.
    destruct (Nat.lt_trichotomy (tk_off k) (n_end y)) as [Q|[Q|Q]]; auto. exfalso.
    destruct (C16_only_end_tags U t cs void l roots HU HT HP y IY) as [_ C].
    destruct C as [C|(m & M & EM)]; auto; [congruence|pose proof (tiles_bounds _ _ _ _ TL K); lia|].
    destruct (ets_token m _ M EM) as (L & CM & _). destruct (span m M) as (M1 & M2 & M3). rewrite EM in M3.
    destruct (n_ste m) as [sm|]; [|contradiction]. destruct (span y IY) as (Y1 & _).
    destruct (lam y m IY M) as [D|[D|[D|[D|D]]]]; try lia.
    + congruence.
    + assert (XM : inside x m).
      { destruct PY as [->|PY]; auto. assert (XY := path_inside _ _ _ P y PY). clear - XY D. revert y XY D.
        assert (TR : forall c, In x (preorder c) -> forall r, In c (preorder r) -> In x (preorder r)).
        { intros c XC. apply (node_induction (fun r => In c (preorder r) -> In x (preorder r))). intros r IH CR.
          rewrite preorder_eq in CR |- *. destruct CR as [->|CR]; [rewrite preorder_eq in XC; auto|]. right.
          apply in_flat_map in CR as (u & U1 & U2). apply in_flat_map. exists u. split; auto. rewrite Forall_forall in IH. auto. }
        intros y XY D. unfold inside in *. apply in_flat_map in D as (u & U1 & U2). apply in_flat_map. exists u. split; auto.
        apply (TR y); auto. rewrite preorder_eq. right. auto. }
      assert (MP := path_ancestors _ _ _ P W m M XM). rewrite Forall_forall in G. destruct (G m MP) as [GB|(lc & LC & EC)].
      * destruct (between_tags k m _ K KT M EM); lia.
      * unfold last_child in LC. assert (In lc (n_children m)).
        { clear - LC. induction (n_children m) as [|u v IH]; [discriminate|]. destruct v; [injection LC as ->; left; auto|right; auto]. }
        destruct M3 as (_ & _ & _ & M3). pose proof (chain_bounds _ _ _ _ M3 H). lia.
    + apply (inside_bounds _ _ IY) in D. lia.
Qed.
Lemma slash_path m : In m (doc_nodes roots) -> PropEnd.open_at (tk_off k) m -> n_ets m <> Some (tk_off k) ->
  In m (x :: rev ps) /\ unclosed o m = true.
Proof.
  intros M (s & S1 & S2 & OE) NE. destruct (end_open_token k K KT) as [E1 _]. pose proof (tiles_bounds _ _ _ _ TL K) as KB.
  destruct (found _ _ _ F) as (P & IX & LX & G & z & IZ & LZ & LA & Z).
  destruct (span m M) as (M1 & M2 & M3). rewrite S1 in M3.
  destruct (C17_closed _ _ _ _ _ _ _ HU HT HP M) as (_ & CN & NC).
  assert (UC : unclosed o m = true).
  { unfold unclosed. destruct (n_closed m) eqn:CM; auto. cbn [negb orb]. destruct OE as [OE|[_ OE]]; [|discriminate].
    destruct (n_ets m) as [e|] eqn:EM.
    - destruct (between_tags k m e K KT M EM); [|lia]. destruct (ets_clear k m e K KT M EM) as [Q|[Q|Q]]; [congruence|lia|lia].
    - destruct (CN eq_refl eq_refl) as [Q _]. rewrite S1 in Q. injection Q as Q. lia. }
  split; auto. assert (LM : n_start m < o) by (destruct (n_ets m); lia).
  destruct (ste_before k z K KT ltac:(rewrite KE; auto) IZ ltac:(lia)) as (sz & Z1 & Z2 & Z3).
  pose proof (LA m M LM) as LMZ.
  assert (ZM : z = m \/ inside z m).
  { destruct (lam z m IZ M) as [D|[D|[D|[D|D]]]]; auto; try lia.
    - apply (inside_bounds _ _ IZ) in D. lia.
    - destruct (span z IZ). lia. }
  assert (UPM : inside x m -> In m (x :: rev ps)).
  { intros D. right. apply in_rev. rewrite rev_involutive. apply (path_ancestors _ _ _ P W m M D). }
  destruct Z as [->|[ZX NG]].
  - destruct ZM as [->|ZM]; [left; auto|auto].
  - destruct (inside_bounds _ _ IX ZX) as (X1 & X2 & _). destruct (span z IZ) as (ZZ & _).
    assert (BM : n_start m <= n_start z /\ n_end z <= n_end m).
    { destruct ZM as [->|ZM]; [lia|]. apply (inside_bounds _ _ M) in ZM. lia. }
    destruct (lam m x M IX) as [D|[D|[D|[D|D]]]]; auto; try lia; [left; auto|]. exfalso.
    assert (NX : n_end x <= o) by (destruct (Nat.le_gt_cases (n_end x) o); auto; exfalso; apply NG; left; lia).
    destruct (inside_bounds _ _ IX D) as (X3 & X4 & _).
    unfold unclosed in UC. destruct (n_closed m) eqn:CM; cbn [negb orb] in UC.
    + destruct (n_ets m) as [e|] eqn:EM; [|discriminate]. lia.
    + assert (NL : n_end m <> n_end x).
      { intros Q. apply NG. right. apply (last_child_end x m); auto. apply node_nested; auto. }
      destruct (C16_only_end_tags U t cs void l roots HU HT HP m M) as [_ C].
      destruct C as [C|(m2 & I2 & EM)]; auto; [congruence|destruct (span x IX) as (_ & SX & _); lia|].
      destruct (ets_token m2 _ I2 EM) as (L & _ & _).
      assert (EQ : n_end m = tk_off k) by (destruct (ets_clear k m2 _ K KT I2 EM) as [Q|[Q|Q]]; auto; lia).
      destruct (span m2 I2) as (_ & _ & S2'). rewrite EM in S2'. destruct (n_ste m2) as [s2|]; [|contradiction].
      destruct (lam x m2 IX I2) as [D2|[D2|[D2|[D2|D2]]]]; try lia.
      * subst m2. lia.
      * apply (inside_bounds _ _ I2) in D2 as (_ & _ & D2). specialize (D2 _ EM). lia.
      * apply (inside_bounds _ _ IX) in D2. lia.
Qed.
Lemma slash_find y : find (unclosed o) (x :: rev ps) = Some y <-> innermost_open (tk_off k) y.
Proof.
  destruct (found _ _ _ F) as (P & _). pose proof (path_order _ _ _ P W) as SS.
  assert (FWD : forall y, find (unclosed o) (x :: rev ps) = Some y -> innermost_open (tk_off k) y).
  { intros y0 FY. destruct (find_some _ _ FY) as [Y UC]. destruct (slash_open y0 Y UC) as [O1 O2].
    split; [apply (slash_in o x ps); auto|]. split; auto. split; auto. intros m M OM NM. destruct (slash_path m M OM NM) as [IM UM].
    eapply find_first; eauto. }
  split; auto. intros (Y & O1 & O2 & MX). destruct (slash_path y Y O1 O2) as [IM UM].
  destruct (find (unclosed o) (x :: rev ps)) as [y'|] eqn:FY.
  - f_equal. destruct (FWD y' eq_refl) as (Y' & A1 & A2 & A3). apply same_start; auto.
    specialize (A3 y Y O1 O2). specialize (MX y' Y' A1 A2). lia.
  - exfalso. apply (find_none _ _ FY y) in IM. congruence.
Qed.
End Slash.

(** ** The start tag of a node *)
Lemma split_run (P : token -> bool) ks : forall k r ks' post, ks ++ k :: r = ks' ++ post ->
  Forall (fun x => P x = true) ks -> Forall (fun x => P x = true) ks' -> (forall x y, post = x :: y -> P x = false) ->
  if P k then exists q, ks' = ks ++ k :: q /\ r = q ++ post else ks' = ks /\ post = k :: r.
Proof.
  induction ks as [|x ks IH]; intros k r [|y ks'] post E F F' N; cbn [app] in E.
  - rewrite (N k r) by auto. split; congruence.
  - injection E as -> E. inversion F'; subst. rewrite H1. exists ks'. auto.
  - inversion F; subst. rewrite (N x _ eq_refl) in H1. discriminate.
  - injection E as <- E. inversion F; subst. inversion F'; subst. specialize (IH _ _ _ _ E H2 H4 N).
    destruct (P k).
    + destruct IH as (q & -> & ->). exists q. auto.
    + destruct IH as [-> ->]. auto.
Qed.
Lemma tag_run n pre op ks k r : In n (doc_nodes roots) -> l = pre ++ op :: ks ++ k :: r -> tk_type op = StartTagOpen ->
  tk_off op = n_start n -> Forall (fun x => in_tag (tk_state x) = true) ks -> tk_off k < tk_end k ->
  exists m z m2 f, runs U t false cs (scanner_new (n_start n) WithinContent) (m ++ z :: m2) f /\
    map token_of m = op :: ks /\ token_of z = k /\
    forall k2 r2, in_tag (tk_state k) = true -> r = k2 :: r2 -> tk_off k2 < tk_end k2 -> exists z2 m3, m2 = z2 :: m3 /\ token_of z2 = k2.
Proof.
  intros I E O1 O2 F NE.
  destruct (start_tag_runs U t cs void roots HU HP n I) as (pre' & op' & ks' & post & m & z & T & P1 & P2 & P3 & K1 & K2 & _ & SE & R & M).
  rewrite HT in T. apply Ok_inj in T. destruct (open_unique _ _ _ _ _ _ E T O1 P1) as (_ & -> & Q); [congruence|].
  pose proof (split_run (fun x => in_tag (tk_state x)) ks k r ks' post Q F K1 K2) as SR. cbn beta in SR.
  destruct (in_tag (tk_state k)) eqn:IK.
  - destruct SR as (q & -> & ->). cbn [app] in M.
    rewrite <- app_assoc in M. change (op' :: ks ++ (k :: q) ++ close_part post) with ((op' :: ks) ++ k :: (q ++ close_part post)) in M.
    apply map_eq_app in M as (m1 & m2 & -> & M1 & M2). destruct m2 as [|y m2]; [discriminate|]. cbn [map] in M2. injection M2 as M2 M3.
    exists m1, y, m2, z. repeat split; auto. intros k2 r2 _ E2 N2.
    assert (X : exists r3, q ++ close_part post = k2 :: r3).
    { destruct q as [|y' q]; cbn [app] in *.
      - subst post. unfold close_part. replace (tk_off k2 <? tk_end k2) with true by lia. eauto.
      - injection E2 as -> _. eauto. }
    destruct X as (r3 & X). rewrite X in M3. destruct m2 as [|z2 m3]; [discriminate|]. injection M3 as M3 _. eauto.
  - destruct SR as [-> ->]. unfold close_part in M. replace (tk_off k <? tk_end k) with true in M by lia.
    change (op' :: ks ++ [k]) with ((op' :: ks) ++ [k]) in M. apply map_eq_app in M as (m1 & m2 & -> & M1 & M2).
    destruct m2 as [|y m2]; [discriminate|]. cbn [map] in M2. injection M2 as M2 M3. exists m1, y, m2, z.
    split; auto. split; auto. split; auto. discriminate.
Qed.
Lemma in_tag_end n pre op ks k r : In n (doc_nodes roots) -> l = pre ++ op :: ks ++ k :: r -> tk_type op = StartTagOpen ->
  tk_off op = n_start n -> Forall (fun x => in_tag (tk_state x) = true) ks -> in_tag (tk_state k) = true ->
  tk_end k <= n_end n /\ forall s, n_ste n = Some s -> tk_end k < s.
Proof.
  intros I E O1 O2 F IK.
  assert (ST : forall s, n_ste n = Some s -> tk_end k < s).
  { intros s S. apply (in_start_tag U t cs void roots HU HP n l pre op ks k r s I HT E O1 O2); auto. apply Forall_app. auto. }
  split; auto. destruct (span n I) as (S1 & S2 & S3). pose proof (tiles_bounds _ _ _ k TL ltac:(rewrite E; apply in_or_app; right; right; apply in_or_app; cbn; auto)) as B.
  destruct (n_ste n) as [s|] eqn:EN.
  - specialize (ST s eq_refl). destruct (n_ets n); lia.
  - destruct (node_facts _ _ _ _ _ HU HP) as (l' & T' & NF). rewrite HT in T'. apply Ok_inj in T'. subst l'.
    destruct (NF n I). destruct ok_close; try congruence. destruct H4 as [H4|H4]; [lia|].
    destruct H4 as (pre' & op' & ks' & k' & r' & TS & P1 & P2 & P3 & P4 & P5 & P6).
    destruct (open_unique _ _ _ _ _ _ E TS O1 P1) as (_ & -> & Q); [congruence|].
    pose proof (split_run (fun x => in_tag (tk_state x)) ks k r ks' (k' :: r') Q F P3 ltac:(intros x y X; injection X as <- _; auto)) as SR.
    cbn beta in SR. rewrite IK in SR. destruct SR as (q & -> & ->). clear - TL TS P5.
    assert (A := TL). rewrite TS in A. apply tiles_app in A as (a & A1 & A2). cbn [tiles] in A2. destruct A2 as (A2 & A3 & A4 & A5).
    apply tiles_app in A5 as (b & B1 & B2). apply (tiles_bounds _ _ _ k) in B1; [|apply in_or_app; cbn; auto].
    cbn [tiles] in B2. lia.
Qed.

(** ** '>': the element whose start tag ends at the cursor *)
Lemma close_byte k : In k l -> tk_type k = StartTagClose -> tk_off k < tk_end k ->
  tk_end k = tk_off k + 1 /\ nth_error t (tk_off k) = Some GT.
Proof.
  intros K T NE. destruct (doc_step k K) as (a & b & S & _ & <-). apply scan_outcome in S; auto. cbn in *.
  inversion S; subst; cbn in *; try discriminate; auto. inversion H1; subst; cbn in *; try discriminate; auto. lia.
Qed.
Lemma inside_ste n m s : In m (doc_nodes roots) -> inside n m -> n_ste m = Some s -> s <= n_start n.
Proof.
  intros I N S. destruct (span m I) as (_ & _ & S3). rewrite S in S3. assert (A := node_nested m I).
  apply in_flat_map in N as (c & C & N). inversion A; subst. rewrite Forall_forall in H0. pose proof (preorder_bounds c (H0 c C) n N).
  destruct (n_ets m); [destruct S3 as (_ & _ & _ & S3)|destruct S3 as (_ & _ & S3)]; pose proof (chain_bounds _ _ _ _ S3 C); lia.
Qed.
Lemma ste_unique n m s : In n (doc_nodes roots) -> In m (doc_nodes roots) -> n_ste n = Some s -> n_ste m = Some s -> n = m.
Proof.
  intros N M S1 S2. destruct (span n N) as (A1 & A2 & A3). destruct (span m M) as (B1 & B2 & B3).
  rewrite S1 in A3. rewrite S2 in B3.
  assert (n_start n < s /\ s <= n_end n) by (destruct (n_ets n); lia). assert (n_start m < s /\ s <= n_end m) by (destruct (n_ets m); lia).
  destruct (lam n m N M) as [D|[D|[D|[D|D]]]]; auto; try lia.
  - apply (inside_ste _ _ s M) in D; auto. lia.
  - apply (inside_ste _ _ s N) in D; auto. lia.
Qed.
Lemma get1_ascii i b : nth_error t i = Some b -> (b < 128)%N -> get1 t i = Some b.
Proof. intros E L. unfold get1. rewrite E. apply N.ltb_lt in L. rewrite L. reflexivity. Qed.
Lemma get1_some i b : get1 t i = Some b -> nth_error t i = Some b.
Proof. unfold get1. destruct (nth_error t i); [|discriminate]. destruct (_ <? _)%N; congruence. Qed.

Section Requests.
Variables (providers : list provider) (lang : str) (p : position).
Let o := offset_at d p.
Notation tag_complete := (do_tag_complete U d cs providers lang roots p).

Lemma gt_complete n x : In n (doc_nodes roots) -> n_tag n = Some x -> ~ declared_void providers lang x ->
  start_tag_ends_with l n StartTagClose -> n_ste n = Some o -> n_ets n <> Some o ->
  tag_complete = Ok (Some (bs "$0</" ++ x ++ bs ">")).
Proof.
  intros I X V (k & K & KT & KN & KS) S E. rewrite KS in S. injection S as S.
  destruct (close_byte k K KT KN) as [B1 B2]. destruct (close_node k K KT KN) as (n' & I' & L' & S' & LA).
  assert (n = n') by (eapply ste_unique; eauto). subst n'.
  destruct (span n I) as (S1 & S2 & S3). rewrite KS in S3.
  destruct (found_last o n I) as (ps & F); [lia|rewrite <- S; auto|destruct (n_ets n); lia|].
  unfold do_tag_complete. change (offset_at d p) with o. destruct o as [|i] eqn:EO; [lia|].
  rewrite (get1_ascii i GT) by (try reflexivity; rewrite <- B2; f_equal; lia).
  change (GT =? 62)%N with true. cbn iota. rewrite F. cbn [bind]. rewrite X.
  replace (is_void_element x (void_list providers lang)) with false.
  2:{ symmetry. destruct (is_void_element x (void_list providers lang)) eqn:Q; auto. apply C43_is_void in Q. contradiction. }
  assert (OB : open_below n (Datatypes.S i) = true).
  { unfold open_below. replace (n_start n <? Datatypes.S i) with true by lia. destruct (n_ets n) as [e|]; auto.
    replace (e <=? Datatypes.S i) with false; auto. symmetry. apply Nat.leb_gt.
    assert (e <> Datatypes.S i) by congruence. lia. }
  rewrite OB. cbn [negb andb].
  assert (IK := K). apply in_split in K as (l1 & l2 & EL). destruct (before_token _ _ _ EL) as (a & g & b & R & M & SC & B & _).
  destruct (close_step _ _ _ SC) as [C1 C2]; [rewrite <- KT, <- B; reflexivity|].
  destruct (in_tag_node l1 k l2 EL) as (n2 & pre & op & ks & I2 & E1 & O1 & O2 & FO & LT & LA2); [eauto|congruence|].
  assert (n2 = n). { apply same_start; auto. pose proof (LA2 n I). pose proof (LA n2 I2). lia. }
  subst n2.
  destruct (tag_run n pre op ks k l2 I) as (m & z & m2 & f & RR & _ & TZ & _); auto.
  { rewrite EL, E1, <- app_assoc. reflexivity. } { eapply Forall_impl; [|exact FO]. cbn. tauto. }
  rewrite (ends_at_of_run n StartTagClose (Datatypes.S i) m z); auto.
  - apply (runs_prefix U t cs m z m2 _ f RR).
  - rewrite <- KT, <- TZ. reflexivity.
  - rewrite <- S, <- TZ. reflexivity.
Qed.
Lemma gt_sound s i : whole 0 o -> o = Datatypes.S i -> get1 t i = Some GT -> tag_complete = Ok (Some s) ->
  exists n x, In n (doc_nodes roots) /\ n_tag n = Some x /\ ~ declared_void providers lang x /\
    start_tag_ends_with l n StartTagClose /\ n_ste n = Some o /\ n_ets n <> Some o /\ s = bs "$0</" ++ x ++ bs ">".
Proof.
  intros WH EO G H. unfold do_tag_complete in H. change (offset_at d p) with o in H. rewrite EO in H. rewrite G in H.
  change (GT =? 62)%N with true in H. cbn iota in H. rewrite <- EO in H. apply bind_ok in H as (f & F & H).
  destruct f as [[n ps]|]; [|discriminate]. destruct (n_tag n) as [x|] eqn:X; [|discriminate].
  destruct (is_void_element x (void_list providers lang)) eqn:V; [discriminate|]. cbn [negb andb] in H.
  destruct (open_below n o) eqn:OB; [|discriminate]. apply bind_ok in H as (e & EA & H). destruct e; [|discriminate].
  apply Ok_inj, Some_inj in H. destruct (found _ _ _ F) as (P & IX & LX & GB & z & IZ & LZ & LA & Z).
  apply (ends_at_iff n StartTagClose o IX) in EA as (k & K & KT & KE & KO); [|intros k K L; apply WH; auto; lia].
  destruct (close_node k K KT ltac:(lia)) as (n' & I' & L' & S' & LA').
  assert (z = n'). { apply same_start; auto. pose proof (LA n' I'). pose proof (LA' z IZ). lia. }
  subst n'. assert (z = n).
  { destruct Z as [Z|[Z NG]]; auto. exfalso. apply NG. destruct (inside_bounds _ _ IX Z) as (B1 & B2 & _).
    destruct (Nat.lt_ge_cases o (n_end n)) as [Q|Q]; [left; auto|right].
    apply (last_child_end n z); auto; [apply node_nested; auto|].
    destruct (span z IZ) as (_ & _ & SZ). rewrite S' in SZ. destruct (n_ets z); lia. }
  subst z. exists n, x. repeat split; auto.
  - intros Q. apply C43_is_void in Q. unfold void_list in V. congruence.
  - exists k. repeat split; auto. lia.
  - congruence.
  - intros Q. unfold open_below in OB. rewrite Q in OB. rewrite Nat.leb_refl in OB. cbn in OB. rewrite andb_false_r in OB. discriminate.
Qed.
Lemma slash_byte k : In k l -> tk_type k = EndTagOpen -> tk_end k = tk_off k + 2 /\ nth_error t (tk_off k + 1) = Some SLASH.
Proof.
  intros K T. destruct (doc_step k K) as (a & b & S & NE & <-). apply scan_outcome in S; auto. cbn in *.
  inversion S; subst; cbn in *; try discriminate; auto. inversion H1; subst; discriminate.
Qed.
Lemma slash_iff s i : whole 0 o -> o = Datatypes.S i -> get1 t i = Some SLASH ->
  (tag_complete = Ok (Some s) <->
   exists k y x, In k l /\ tk_type k = EndTagOpen /\ tk_end k = o /\ innermost_open (tk_off k) y /\ n_tag y = Some x /\
     s = x ++ (if opt_beqN (nth_error t o) (Some GT) then [] else bs ">")).
Proof.
  intros WH EO G.
  assert (SUF : match get1 t o with Some c => if (c =? 62)%N then [] else bs ">" | None => bs ">" end =
     (if opt_beqN (nth_error t o) (Some GT) then [] else bs ">")).
  { unfold get1. destruct (nth_error t o) as [c|]; cbn [opt_beqN]; auto. change GT with 62%N.
    destruct (c <? 128)%N eqn:Q; auto. apply N.ltb_ge in Q. destruct (c =? 62)%N eqn:Q'; auto. apply N.eqb_eq in Q'. lia. }
  unfold do_tag_complete. change (offset_at d p) with o. rewrite EO at 1. cbn iota. rewrite G.
  change (SLASH =? 62)%N with false. change (SLASH =? 47)%N with true. cbn iota. rewrite SUF. split.
  - intros H. apply bind_ok in H as (f & F & H). destruct f as [[x ps]|]; [|discriminate].
    destruct (find (unclosed o) (x :: rev ps)) as [y|] eqn:FY; [|discriminate].
    destruct (n_tag y) as [tg|] eqn:TY; [|discriminate]. apply bind_ok in H as (e & EA & H). destruct e; [|discriminate].
    apply Ok_inj, Some_inj in H.
    destruct (slash_in o x ps y F (proj1 (find_some _ _ FY))) as (IY & LY & _).
    apply (ends_at_iff y EndTagOpen o IY) in EA as (k & K & KT & KE & KO); [|intros k K L; apply WH; auto; lia].
    exists k, y, tg. repeat split; auto; apply (slash_find k o x ps K KT KE WH F); auto.
  - intros (k & y & x & K & KT & KE & IN & TY & ->). destruct (slash_byte k K KT) as [L _].
    assert (IY : In y (doc_nodes roots)) by apply IN.
    assert (LY : n_start y < tk_off k).
    { destruct IN as (_ & (s0 & Q1 & Q2 & _) & _). destruct (span y IY) as (_ & _ & S3). rewrite Q1 in S3. destruct (n_ets y); lia. }
    destruct (found_total o) as ([[x0 ps]|] & F); [|apply found_none with (m := y) in F; auto; lia].
    rewrite F. cbn [bind]. rewrite (proj2 (slash_find k o x0 ps K KT KE WH F y) IN). rewrite TY.
    rewrite (proj2 (ends_at_iff y EndTagOpen o IY ltac:(intros k' K' L'; apply WH; auto; lia))); auto.
    exists k. repeat split; auto; lia.
Qed.
End Requests.

(** ** Quote completion *)
(** Nothing that could be a value stands at [o]. *)
Definition no_value (o : nat) : Prop :=
  length t <= o \/ exists b, nth_error t o = Some b /\ (is_ws b = true \/ b = GT).
Lemma attr_step emit a r : scan U t emit cs a = Ok r -> tok r = AttributeName -> st r = AfterAttributeName /\ has_space r = false.
Proof.
  intros S T. apply scan_outcome in S; auto. inversion S; subst; cbn [finish tok st] in *; try discriminate.
  inversion H1; subst; cbn [finish tok st] in *; try discriminate. auto.
Qed.
Lemma assign_step emit a r : scan U t emit cs a = Ok r -> st a = AfterAttributeName -> nth_error t (pos a) = Some EQ ->
  tok r = DelimiterAssign /\ pos r = pos a + 1 /\ tok_off r = pos a /\ st r = BeforeAttributeValue /\ has_space r = has_space a.
Proof.
  intros S E Q. assert (NW : skip_ws t (pos a) = None) by (eapply skip_ws_not; eauto).
  assert (R : scan U t emit cs a = Ok (finish a (pos a) DelimiterAssign None (pos a + 1) BeforeAttributeValue)).
  { apply outcome_scan; auto; [|right; unfold in_tag_state; auto|discriminate]. apply O_assign; auto. }
  rewrite S in R. apply Ok_inj in R. subst r. cbn. auto.
Qed.
Lemma assign_ok emit a : st a = AfterAttributeName -> nth_error t (pos a) = Some EQ -> exists r, scan U t emit cs a = Ok r.
Proof.
  intros E Q. eexists. apply outcome_scan; auto; [apply O_assign; auto|right; unfold in_tag_state; auto|discriminate].
Qed.
Lemma assign_back emit a r : scan U t emit cs a = Ok r -> st a = AfterAttributeName -> tok r = DelimiterAssign ->
  nth_error t (pos a) = Some EQ.
Proof.
  intros S E T. apply scan_outcome in S; auto. inversion S; subst; cbn [finish tok st] in *; try discriminate; auto.
  inversion H1; subst; cbn [finish tok st] in *; discriminate.
Qed.
Lemma value_step a r : scan U t false cs a = Ok r -> st a = BeforeAttributeValue -> has_space a = false ->
  tok r = Unknown \/ tok r = AttributeValue \/ no_value (pos a).
Proof.
  intros S E Hs. apply scan_outcome in S; auto. inversion S; subst; cbn [finish tok st] in *; auto; try congruence;
    try (match goal with C : content_like _ _ |- _ => destruct C as [C|[[C _]|[C _]]]; congruence end);
    try (match goal with C : _ \/ _ |- _ => destruct C; congruence end).
  - right; right. left. auto.
  - inversion H0; subst; try congruence. inversion H1; subst; cbn [finish tok st set_space set_st has_space pos] in *; auto; try congruence.
    + destruct (nth_error t (pos a)) as [b|] eqn:B.
      * exfalso. assert (b = 47%N) by (pose proof (prefix_first _ _ _ _ H8) as Q; cbn in Q; congruence). subst b.
        rewrite (skipn_cons _ _ _ B) in H5. cbn in H5. discriminate.
      * right; right. left. apply nth_error_None. auto.
    + right; right. right. exists GT. auto.
  - right; right. apply skip_ws_some in H0 as (A & B & C & _). destruct (C (pos a)) as (b & B1 & B2); try lia. right. eauto.
Qed.
Lemma value_ok a : st a = BeforeAttributeValue -> no_value (pos a) ->
  exists r, scan U t false cs a = Ok r /\ tok r <> Unknown /\ tok r <> AttributeValue.
Proof.
  intros E [N|(b & B & N)].
  - eexists. split; [apply outcome_scan; auto; [apply O_eos; auto|right; unfold in_tag_state; auto|discriminate]|]. split; discriminate.
  - destruct (skip_ws t (pos a)) as [e|] eqn:SK.
    + eexists. split; [apply outcome_scan; auto; [apply O_value_ws; eauto|right; unfold in_tag_state; auto|discriminate]|]. split; discriminate.
    + pose proof (skip_ws_none _ _ SK b B) as NW. destruct N as [N| ->]; [congruence|].
      assert (L : pos a < length t) by (eapply nth_error_lt; eauto).
      eexists. split; [apply outcome_scan; auto;
        [eapply O_in_tag; [exact L|apply ET_value; auto; try congruence|apply TO_close; exact B]
        |right; unfold in_tag_state; auto|discriminate]|split; discriminate].
      * apply Bd_boundary. eapply Bd_at_ascii; eauto. reflexivity.
      * eapply char_run_at_ascii; eauto; reflexivity.
      * rewrite B. discriminate.
      * rewrite B. discriminate.
Qed.
Lemma quote_loop_sound o v w : forall fuel sc, (do x <- scan U t false cs sc; quote_loop U d cs fuel o v x) = Ok (Some w) ->
  w = v /\ exists m r s1 s2, runs U t false cs sc (m ++ [r]) r /\ tok r = AttributeName /\ pos r = o - 1 /\
    scan U t false cs r = Ok s1 /\ tok s1 = DelimiterAssign /\ scan U t false cs s1 = Ok s2 /\ tok s2 <> Unknown /\ tok s2 <> AttributeValue.
Proof.
  induction fuel as [|fuel IH]; intros sc H; apply bind_ok in H as (x & S & H); [discriminate|].
  cbn [quote_loop] in H. destruct (token_eqb (tok x) EOS) eqn:NE; cbn [negb andb] in H; [discriminate|].
  apply token_eqb_neq in NE. destruct (pos x <=? o); [|discriminate].
  destruct (token_eqb (tok x) AttributeName && (pos x =? o - 1)) eqn:E.
  - apply andb_true_iff in E as [E1 E2]. apply token_eqb_eq in E1. apply bind_ok in H as (s1 & S1 & H).
    destruct (token_eqb (tok s1) DelimiterAssign) eqn:D; [|discriminate]. cbn [negb] in H. apply bind_ok in H as (s2 & S2 & H).
    destruct (token_eqb (tok s2) Unknown) eqn:U1; [discriminate|]. destruct (token_eqb (tok s2) AttributeValue) eqn:U2; [discriminate|].
    apply Ok_inj, Some_inj in H. split; auto. exists [], x, s1, s2. apply token_eqb_eq in D. apply token_eqb_neq in U1, U2.
    split; [cbn; constructor; auto; constructor|]. repeat split; auto. lia.
  - apply IH in H as (Q & m & r & s1 & s2 & R & Q'). split; auto. exists (x :: m), r, s1, s2. split; auto. cbn [app]. constructor; auto.
Qed.
Lemma quote_loop_complete o v s1 s2 m : forall sc r fuel, runs U t false cs sc (m ++ [r]) r -> tok r = AttributeName ->
  pos r = o - 1 -> 0 < o -> scan U t false cs r = Ok s1 -> tok s1 = DelimiterAssign -> scan U t false cs s1 = Ok s2 ->
  tok s2 <> Unknown -> tok s2 <> AttributeValue -> Datatypes.S (length m) <= fuel ->
  (do x <- scan U t false cs sc; quote_loop U d cs fuel o v x) = Ok (Some v).
Proof.
  induction m as [|x m IH]; intros sc r fuel R T P O S1 T1 S2 U1 U2 F; cbn [app] in R; apply runs_inv in R as (S & NE & R).
  - rewrite S. cbn [bind]. destruct fuel; [lia|]. cbn [quote_loop]. apply token_eqb_neq in NE. rewrite NE.
    rewrite T. cbn [token_eqb]. replace (pos r <=? o) with true by lia. replace (pos r =? o - 1) with true by lia. cbn [negb andb].
    rewrite S1. cbn [bind]. rewrite T1. cbn [token_eqb negb]. rewrite S2. cbn [bind]. apply token_eqb_neq in U1, U2. rewrite U1, U2. reflexivity.
  - rewrite S. cbn [bind]. cbn [length] in F. destruct fuel; [lia|]. cbn [quote_loop]. apply token_eqb_neq in NE. rewrite NE.
    pose proof (runs_after U t cs HU _ _ _ R) as A. rewrite Forall_forall in A.
    specialize (A r ltac:(apply in_or_app; cbn; auto)).
    replace (pos x <=? o) with true by lia. cbn [negb andb].
    replace (pos x =? o - 1) with false by lia. rewrite andb_false_r. apply (IH x r); auto. lia.
Qed.
Section Quote.
Variables (settings : option completion_settings) (p : position).
Let o := offset_at d p.
Notation quote_complete := (do_quote_complete U d cs settings roots p).
Definition snippet (q : quotes) : option str :=
  match q with QDouble => Some (bs """$1""") | QSingle => Some (bs "'$1'") | QNone => None end.
Lemma quote_complete_ok k v : In k l -> tk_type k = AttributeName -> tk_end k + 1 = o -> nth_error t (tk_end k) = Some EQ ->
  no_value o -> snippet (the_quotes settings) = Some v -> quote_complete = Ok (Some v).
Proof.
  intros K KT KE Q NV SV. assert (IK := K). apply in_split in IK as (l1 & l2 & EL).
  assert (TT := TL). rewrite EL in TT. apply tiles_app in TT as (a & T1 & T2). cbn [tiles] in T2. destruct T2 as (T2 & T3 & T4 & T5).
  assert (LT : tk_end k < length t) by (eapply nth_error_lt; eauto).
  destruct l2 as [|k' l2]; [cbn in T5; lia|].
  destruct (before_token _ _ _ EL) as (m0 & g & b & R0 & M0 & S0 & B0 & NE0).
  destruct (tag_part_step U t cs HU _ _ _ S0) as [TP1 TP2]; [rewrite <- B0 in KT; right; left; exact KT|].
  assert (KN : tk_off k < tk_end k).
  { apply scan_outcome in S0; auto. apply outcome_progress in S0 as (P1 & P2). rewrite <- B0 in KT |- *. cbn in KT |- *.
    destruct P2 as [(P2 & _)|[(_ & P2 & _)|(_ & P2 & _)]]; try congruence; try lia. destruct P2; congruence. }
  destruct (doc_next l1 k k' l2 EL) as (a1 & b1 & A1 & S1 & NE1 & B1).
  assert (SA : st a1 = AfterAttributeName).
  { destruct (attr_step _ _ _ S0) as [Q1 _]; [rewrite <- B0 in KT; exact KT|].
    rewrite <- B0 in A1. apply (f_equal tk_state) in A1. cbn in A1. congruence. }
  assert (PA : pos a1 = tk_end k) by (rewrite <- A1; reflexivity).
  destruct (assign_step _ _ _ S1 SA) as (D1 & D2 & D3 & D4 & D5); [rewrite PA; auto|].
  assert (IK' : tk_type k' = DelimiterAssign /\ tk_end k' = o /\ tk_off k' = tk_end k /\ tk_state k' = BeforeAttributeValue).
  { rewrite <- B1. cbn. rewrite D1, D2, D3, D4, PA. auto. }
  destruct IK' as (KT' & KE' & KO' & KS').
  assert (EL' : l = (l1 ++ [k]) ++ k' :: l2) by (rewrite EL, <- app_assoc; reflexivity).
  destruct (in_tag_node (l1 ++ [k]) k' l2 EL') as (n & pre & op & ks & I & E1 & O1 & O2 & FO & LN & LA).
  { exists (m0 ++ [b]), b. split; [|split; auto].
    - clear - R0 S0 NE0. induction R0; cbn [app]; constructor; auto. constructor.
    - rewrite map_app, M0. cbn [map]. rewrite B0. reflexivity. }
  { rewrite KT'. discriminate. }
  assert (EF : l = pre ++ op :: ks ++ k' :: l2) by (rewrite EL', E1, <- app_assoc; reflexivity).
  assert (FO' : Forall (fun x => in_tag (tk_state x) = true) ks) by (eapply Forall_impl; [|exact FO]; cbn; tauto).
  destruct (in_tag_end n pre op ks k' l2 I EF O1 O2 FO') as [EN ES]; [rewrite KS'; reflexivity|].
  destruct (found_last o n I) as (ps & F); [lia|rewrite <- KE'; auto|lia|].
  (* the token before *)
  assert (KSP : exists ks0, ks = ks0 ++ [k]).
  { destruct ks as [|y ks0 _] using rev_ind.
    - exfalso. change (pre ++ [op]) with (pre ++ [op]) in E1. apply app_inj_tail in E1 as [_ E1]. subst op. congruence.
    - exists ks0. replace (pre ++ op :: ks0 ++ [y]) with ((pre ++ op :: ks0) ++ [y]) in E1 by (rewrite <- app_assoc; reflexivity).
      apply app_inj_tail in E1 as [_ ->]. auto. }
  destruct KSP as (ks0 & ->).
  assert (EF2 : l = pre ++ op :: ks0 ++ k :: k' :: l2) by (rewrite EF, <- app_assoc; reflexivity).
  apply Forall_app in FO' as [FO1 FO2].
  destruct (tag_run n pre op ks0 k (k' :: l2) I EF2 O1 O2 FO1 KN) as (m & z & m2 & f & RR & _ & TZ & TN).
  destruct (TN k' l2) as (z2 & m3 & -> & TZ2); auto; [inversion FO2; auto|lia|].
  assert (RZ := RR). apply runs_app in RZ as (g0 & _ & RZ). apply runs_inv in RZ as (SZ & NZ & RZ). apply runs_inv in RZ as (S2 & N2 & RZ).
  assert (TKZ : tok z = AttributeName) by (rewrite <- KT, <- TZ; reflexivity).
  assert (PZ : pos z = o - 1) by (pose proof (f_equal tk_end TZ) as X; cbn in X; lia).
  destruct (attr_step _ _ _ SZ TKZ) as [SZ1 SZ2].
  destruct (assign_step _ _ _ S2 SZ1) as (G1 & G2 & G3 & G4 & G5); [pose proof (f_equal tk_end TZ) as X; cbn in X; rewrite X; auto|].
  destruct (value_ok z2 G4) as (z3 & S3 & U1 & U2); [replace (pos z2) with o by lia; auto|].
  unfold do_quote_complete. change (offset_at d p) with o. destruct o as [|i] eqn:EO; [lia|].
  rewrite (get1_ascii i EQ) by (try reflexivity; rewrite <- Q; f_equal; lia).
  change (EQ =? 61)%N with true. cbn iota.
  assert (OB : open_below n (Datatypes.S i) = true).
  { unfold open_below. replace (n_start n <? Datatypes.S i) with true by lia. destruct (n_ets n) as [e|] eqn:EE; auto.
    destruct (span n I) as (_ & _ & S4). rewrite EE in S4. destruct (n_ste n) as [s|]; [|contradiction]. specialize (ES s eq_refl).
    replace (e <=? Datatypes.S i) with false by lia. reflexivity. }
  assert (LP : (do x <- scan U t false cs (scanner_new (n_start n) WithinContent); quote_loop U d cs (scan_fuel t) (Datatypes.S i) v x) = Ok (Some v)).
  { apply (quote_loop_complete (Datatypes.S i) v z2 z3 m _ z); auto; try lia.
    - apply (runs_prefix U t cs m z (z2 :: m3) _ f RR).
    - pose proof (runs_prefix U t cs m z (z2 :: m3) _ f RR) as RP.
      destruct (span n I) as (S1' & S2' & _). pose proof (runs_length U t cs HU _ _ _ RP ltac:(cbn; lia)) as QL.
      rewrite app_length in QL. cbn [length] in QL. unfold scan_fuel. lia. }
  destruct (the_quotes settings); cbn [snippet] in SV; try discriminate; apply Some_inj in SV; subst v;
    rewrite F; cbn [bind]; rewrite OB; exact LP.
Qed.
Lemma quote_complete_only v : whole 0 o -> quote_complete = Ok (Some v) ->
  snippet (the_quotes settings) = Some v /\
  exists k, In k l /\ tk_type k = AttributeName /\ tk_end k + 1 = o /\ nth_error t (tk_end k) = Some EQ /\ no_value o.
Proof.
  intros WH H. unfold do_quote_complete in H. change (offset_at d p) with o in H.
  destruct o as [|i] eqn:EO; [discriminate|]. destruct (get1 t i) as [b|] eqn:G; [|discriminate].
  destruct (b =? 61)%N eqn:B; [|discriminate]. apply N.eqb_eq in B. subst b. apply get1_some in G.
  assert (H' : exists v', snippet (the_quotes settings) = Some v' /\
     (do f <- find_node_before roots (Datatypes.S i);
                match f with
                | None => Ok None
                | Some (x, _) =>
                    if open_below x (Datatypes.S i) then
                      do sc <- scan U t false cs (scanner_new (n_start x) WithinContent);
                      quote_loop U d cs (scan_fuel t) (Datatypes.S i) v' sc
                    else Ok None
                end) = Ok (Some v)).
  { destruct (the_quotes settings); try discriminate; cbn [snippet]; eauto. }
  clear H. destruct H' as (v' & SV & H). apply bind_ok in H as (f & F & H). destruct f as [[x ps]|]; [|discriminate].
  destruct (open_below x (Datatypes.S i)) eqn:OB; [|discriminate].
  apply quote_loop_sound in H as (-> & m & r & s1 & s2 & R & TR & PR & S1 & T1 & S2 & U1 & U2). split; auto.
  destruct (found _ _ _ F) as (_ & IX & LX & _).
  assert (R' := R). apply runs_app in R' as (g & _ & R'). apply runs_inv in R' as (SR & _).
  destruct (attr_step _ _ _ SR TR) as [SA SP].
  assert (Q : nth_error t (pos r) = Some EQ) by (rewrite PR; replace (Datatypes.S i - 1) with i by lia; exact G).
  destruct (assign_step _ _ _ S1 SA Q) as (D1 & D2 & D3 & D4 & D5).
  destruct (run_in x m r IX R) as (pre & rest & E); [intros k K L; apply WH; auto; lia|].
  exists (token_of r). split; [rewrite E; apply in_or_app; right; apply in_or_app; left; apply in_map; apply in_or_app; cbn; auto|].
  cbn. repeat split; auto; [lia|]. destruct (value_step _ _ S2 D4) as [Q1|[Q1|Q1]]; try contradiction; [congruence|].
  replace (Datatypes.S i) with (pos s1) by lia. auto.
Qed.
End Quote.
End Main.

(** ** The theorems *)
(** [finished l o]: no tag that starts before [o] is left unfinished. The parser ends an
    unfinished tag by an empty token. *)
Definition finished (l : list token) (o : nat) : Prop :=
  forall k, In k l -> tk_off k < o -> tk_off k < tk_end k.
Lemma finished_whole l o : finished l o -> whole l 0 o.
Proof. intros F k K L. apply F; auto. lia. Qed.

(** The start tag of [n], an element with a name that is not void, ends at [o] with a '>' and
    its end tag is not the next thing. *)
Definition start_tag_just_closed (l : list token) (roots : list node) (providers : list provider) (lang : str)
           (o : nat) (x : str) : Prop :=
  exists n, In n (doc_nodes roots) /\ n_tag n = Some x /\ ~ declared_void providers lang x /\
    start_tag_ends_with l n StartTagClose /\ n_ste n = Some o /\ n_ets n <> Some o.
(** A '</' ends at [o], and the innermost element still open there is called [x]. *)
Definition end_tag_just_opened (l : list token) (roots : list node) (o : nat) (x : str) : Prop :=
  exists k y, In k l /\ tk_type k = EndTagOpen /\ tk_end k = o /\ innermost_open roots (tk_off k) y /\ n_tag y = Some x.

Theorem C40_tag_complete : forall U d cs void roots l providers lang p s,
  textdoc_ok d -> parse U (d_text d) cs void = Ok roots -> doc_tokens U (d_text d) cs = Ok l ->
  finished l (offset_at d p) ->
  (do_tag_complete U d cs providers lang roots p = Ok (Some s) <->
   exists x, (start_tag_just_closed l roots providers lang (offset_at d p) x /\ s = bs "$0</" ++ x ++ bs ">") \/
             (end_tag_just_opened l roots (offset_at d p) x /\
              s = x ++ if opt_beqN (nth_error (d_text d) (offset_at d p)) (Some GT) then [] else bs ">")).
Proof.
  intros U d cs void roots l providers lang p s HD HP HT FI. apply finished_whole in FI. split.
  - intros H. assert (B : exists i b, offset_at d p = S i /\ get1 (d_text d) i = Some b /\ (b = GT \/ b = SLASH)).
    { unfold do_tag_complete in H. destruct (offset_at d p) as [|i]; [discriminate|]. destruct (get1 (d_text d) i) as [b|] eqn:G; [|discriminate].
      exists i, b. split; auto. split; auto. destruct (b =? 62)%N eqn:Q1; [left; apply N.eqb_eq; auto|].
      destruct (b =? 47)%N eqn:Q2; [right; apply N.eqb_eq; auto|discriminate]. }
    destruct B as (i & b & E & G & [-> | ->]).
    + destruct (gt_sound U d cs void roots l HD HP HT providers lang p s i FI E G H) as (n & x & A1 & A2 & A3 & A4 & A5 & A6 & ->).
      exists x. left. split; auto. exists n. auto 10.
    + apply (slash_iff U d cs void roots l HD HP HT providers lang p s i FI E G) in H as (k & y & x & A1 & A2 & A3 & A4 & A5 & ->).
      exists x. right. split; auto. exists k, y. auto.
  - intros (x & [[(n & A1 & A2 & A3 & A4 & A5 & A6) ->]|[(k & y & A1 & A2 & A3 & A4 & A5) ->]]).
    + apply (gt_complete U d cs void roots l HD HP HT providers lang p n x); auto.
    + destruct (slash_byte U d cs l HD HT k A1 A2) as [B1 B2].
      apply (slash_iff U d cs void roots l HD HP HT providers lang p _ (tk_off k + 1) FI); [lia| |exists k, y, x; auto 10].
      apply get1_ascii; auto. reflexivity.
Qed.
Print Assumptions C40_tag_complete.
(** After '>' the answer is given whatever was left unfinished before. *)
Theorem C40_start_tag : forall U d cs void roots l providers lang p x,
  textdoc_ok d -> parse U (d_text d) cs void = Ok roots -> doc_tokens U (d_text d) cs = Ok l ->
  start_tag_just_closed l roots providers lang (offset_at d p) x ->
  do_tag_complete U d cs providers lang roots p = Ok (Some (bs "$0</" ++ x ++ bs ">")).
Proof.
  intros U d cs void roots l providers lang p x HD HP HT (n & A1 & A2 & A3 & A4 & A5 & A6).
  apply (gt_complete U d cs void roots l HD HP HT providers lang p n x); auto.
Qed.
Print Assumptions C40_start_tag.
(** [innermost_open] picks at most one element. *)
Theorem C40_unique : forall U t cs void roots e x y, Utf8 t -> parse U t cs void = Ok roots ->
  innermost_open roots e x -> innermost_open roots e y -> x = y.
Proof.
  intros U t cs void roots e x y HU HP (X1 & X2 & X3 & X4) (Y1 & Y2 & Y3 & Y4).
  specialize (X4 y Y1 Y2 Y3). specialize (Y4 x X1 X2 X3).
  pose proof (proj2 (C12_spans _ _ _ _ _ HU HP)) as SP. rewrite Forall_forall in SP.
  destruct X2 as (s & S1 & S2 & S3). destruct Y2 as (s' & S1' & S2' & S3').
  pose proof (parsed_wf _ _ _ _ _ HU HP) as W.
  assert (TR : forall n m, In m (doc_nodes roots) -> In n (flat_map preorder (n_children m)) -> n_start m < n_start n).
  { intros n m M N. unfold doc_nodes in M. apply in_flat_map in M as (r & R & M). destruct W as [_ F]. rewrite Forall_forall in F.
    specialize (F r R). clear - F M N. revert r F M.
    apply (node_induction (fun r => all_nodes nested r -> In m (preorder r) -> n_start m < n_start n)).
    intros r IH A M. rewrite preorder_eq in M. destruct M as [<-|M]; [apply (preorder_bounds_strict _ _ A N)|]. apply in_flat_map in M as (c & C & M).
    inversion A; subst. rewrite Forall_forall in IH, H0. eauto. }
  destruct (SP x X1) as (B1 & _). destruct (SP y Y1) as (B2 & _).
  destruct (laminar_nodes roots W x y X1 Y1) as [D|[D|[D|[D|D]]]]; auto; try lia; apply TR in D; auto; lia.
Qed.
Print Assumptions C40_unique.

(** Quote completion. An attribute name is directly followed by '=' and the cursor, and no
    value follows: the text ends there, or white space or '>' comes next. *)
Definition value_wanted (t : str) (l : list token) (o : nat) : Prop :=
  exists k, In k l /\ tk_type k = AttributeName /\ tk_end k + 1 = o /\ nth_error t (tk_end k) = Some EQ /\
    (length t <= o \/ exists b, nth_error t o = Some b /\ (is_ws b = true \/ b = GT)).
(** The snippet for the setting attribute_default_value, which defaults to double quotes. *)
Definition configured (settings : option completion_settings) : option str :=
  snippet (match settings with Some s => cs_quotes s | None => QDouble end).
Theorem C41_quote_complete : forall U d cs void roots l settings p v,
  textdoc_ok d -> parse U (d_text d) cs void = Ok roots -> doc_tokens U (d_text d) cs = Ok l ->
  finished l (offset_at d p) ->
  (do_quote_complete U d cs settings roots p = Ok (Some v) <->
   configured settings = Some v /\ value_wanted (d_text d) l (offset_at d p)).
Proof.
  intros U d cs void roots l settings p v HD HP HT FI. apply finished_whole in FI. split.
  - intros H. destruct (quote_complete_only U d cs void roots l HD HP HT settings p v FI H) as (A & k & B). split; auto. exists k. exact B.
  - intros (A & k & K1 & K2 & K3 & K4 & K5). apply (quote_complete_ok U d cs void roots l HD HP HT settings p k v); auto.
Qed.
Print Assumptions C41_quote_complete.
(** The snippet is offered whatever was left unfinished before. *)
Theorem C41_offered : forall U d cs void roots l settings p v,
  textdoc_ok d -> parse U (d_text d) cs void = Ok roots -> doc_tokens U (d_text d) cs = Ok l ->
  configured settings = Some v -> value_wanted (d_text d) l (offset_at d p) ->
  do_quote_complete U d cs settings roots p = Ok (Some v).
Proof.
  intros U d cs void roots l settings p v HD HP HT A (k & K1 & K2 & K3 & K4 & K5).
  apply (quote_complete_ok U d cs void roots l HD HP HT settings p k v); auto.
Qed.
Print Assumptions C41_offered.
(** Nothing is offered elsewhere, unless a tag was left unfinished. *)
Theorem C41_configured : forall U d cs settings roots p v,
  do_quote_complete U d cs settings roots p = Ok (Some v) ->
  configured settings = Some v /\ exists i, offset_at d p = S i /\ nth_error (d_text d) i = Some EQ.
Proof.
  intros U d cs settings roots p v H. unfold do_quote_complete in H. destruct (offset_at d p) as [|i]; [discriminate|].
  destruct (get1 (d_text d) i) as [b|] eqn:G; [|discriminate]. destruct (b =? 61)%N eqn:B; [|discriminate]. apply N.eqb_eq in B. subst b.
  split; [|exists i; split; auto; unfold get1 in G; destruct (nth_error (d_text d) i); [|discriminate]; destruct (_ <? _)%N; [exact G|discriminate]].
  unfold configured. change (match settings with Some s => cs_quotes s | None => QDouble end) with (the_quotes settings).
  destruct (the_quotes settings); try discriminate; apply bind_ok in H as (f & F & H); destruct f as [[x ps]|]; try discriminate;
    destruct (open_below x (S i)); try discriminate; apply quote_loop_sound in H as [-> _]; reflexivity.
Qed.
Print Assumptions C41_configured.

(** ** Demonstrations *)
Definition tc_run (s : str) (o : nat) : res (option str) :=
  let d := utf16_doc s in let pv := [html_provider demo_unicode (bs "html5") builtin_data false] in
  do roots <- parse demo_unicode s false (get_void_elements pv (bs "html"));
  do_tag_complete demo_unicode d false pv (bs "html") roots (position_at d o).
Definition qc_run (st : option completion_settings) (s : str) (o : nat) : res (option str) :=
  let d := utf16_doc s in
  do roots <- parse demo_unicode s false html5_void;
  do_quote_complete demo_unicode d false st roots (position_at d o).
Example C40_demo :
  tc_run (bs "<ul><li><b>x</b>y</") 19 = Ok (Some (bs "li>")) /\
  tc_run (bs "<ul><li><b>x</b>y</></ul>") 19 = Ok (Some (bs "li")) /\
  tc_run (bs "<ul><li>y</") 11 = Ok (Some (bs "li>")) /\
  tc_run (bs "<ul><li>") 8 = Ok (Some (bs "$0</li>")) /\
  tc_run (bs "<ul><li></li>") 8 = Ok None /\
  tc_run (bs "<ul><br>") 8 = Ok None /\
  tc_run (bs "<ul></li></") 11 = Ok (Some (bs "ul>")).
Proof. vm_compute. repeat split. Qed.
(** The hypotheses of [C40_tag_complete] hold in the first of these. *)
Example C40_hypotheses : let s := bs "<ul><li><b>x</b>y</" in
  textdoc_ok (utf16_doc s) /\ (do l <- doc_tokens demo_unicode s false; Ok (forallb (fun k => tk_off k <? tk_end k) l)) = Ok true.
Proof. split; [apply C27_contract; exists (decode (bs "<ul><li><b>x</b>y</")); vm_compute; auto|vm_compute; reflexivity]. Qed.
Example C41_demo :
  qc_run None (bs "<a x= y>") 5 = Ok (Some (bs """$1""")) /\
  qc_run (Some (mkCS false QSingle [])) (bs "<a x=") 5 = Ok (Some (bs "'$1'")) /\
  qc_run (Some (mkCS false QNone [])) (bs "<a x=") 5 = Ok None /\
  qc_run None (bs "<a x=""1"">") 5 = Ok None /\ qc_run None (bs "<a x=/>") 5 = Ok None /\
  qc_run None (bs "<a x =>") 6 = Ok None /\ qc_run None (bs "<a>x=</a>") 5 = Ok None.
Proof. vm_compute. repeat split. Qed.

(** ** Findings *)
(** When an earlier tag was left unfinished the services run on past its end. The '>' of an
    end tag is taken for that of the unfinished start tag before it, and a '=' in the text
    of an element for that of an attribute. *)
Theorem C40_unfinished_refuted : tc_run (bs "<a x=""1"" </b>") 14 = Ok (Some (bs "$0</a>")).
Proof. vm_compute. reflexivity. Qed.
Theorem C41_unfinished_refuted : qc_run None (bs "<a <!-- x= -->") 10 = Ok (Some (bs """$1""")).
Proof. vm_compute. reflexivity. Qed.
(** An end tag that follows after some content does not count: a second one is proposed. *)
Theorem C40_closed_refuted : tc_run (bs "<p>x</p>") 3 = Ok (Some (bs "$0</p>")).
Proof. vm_compute. reflexivity. Qed.
(** An element without a name that is open hides the named one around it. *)
Theorem C40_nameless_refuted : tc_run (bs "<p><></") 7 = Ok None.
Proof. vm_compute. reflexivity. Qed.
