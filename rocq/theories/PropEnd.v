(** * C16: an end tag closes the nearest open element of its name *)
From Verif Require Import Base Stream Scanner BaseFacts ScannerFacts ScanStep ScanProps ScanPanic
  ScanShape ScanResume ScanEnter Tree Parser ParseSpec ParseInv ParseOrder PropParse TreeFacts PropTree ParseEnd.
From Coq Require Import ZifyBool ZifyNat ZifyN.

(** Two nodes of a forest are the same, nested, or disjoint. *)
Definition laminar (n m : node) : Prop :=
  n = m \/ In n (flat_map preorder (n_children m)) \/ In m (flat_map preorder (n_children n)) \/
  n_end m <= n_start n \/ n_end n <= n_start m.
Lemma forest_laminar l : Forall (all_nodes nested) l ->
  Forall (fun x => forall n m, In n (preorder x) -> In m (preorder x) -> laminar n m) l ->
  forall a b, chain a l b ->
  forall n m, In n (flat_map preorder l) -> In m (flat_map preorder l) -> laminar n m.
Proof.
  induction l as [|c l IH]; intros A F a b C n m N M; [contradiction|].
  inv A. inv F. destruct C as (C1 & C2 & C3). cbn [flat_map] in N, M.
  assert (D : forall x, In x (flat_map preorder l) -> n_end c <= n_start x).
  { intros x X. apply in_flat_map in X as (y & Y & X). pose proof (chain_bounds _ _ _ _ C3 Y).
    rewrite Forall_forall in H2. pose proof (preorder_bounds y (H2 y Y) x X). lia. }
  apply in_app_iff in N as [N|N]; apply in_app_iff in M as [M|M].
  - auto.
  - apply D in M. pose proof (preorder_bounds c H1 n N). unfold laminar. right. right. right. right. lia.
  - apply D in N. pose proof (preorder_bounds c H1 m M). unfold laminar. right. right. right. left. lia.
  - eapply IH; eauto.
Qed.
Lemma tree_laminar x : all_nodes nested x -> forall n m, In n (preorder x) -> In m (preorder x) -> laminar n m.
Proof.
  revert x. apply (node_induction (fun x => all_nodes nested x -> forall n m, In n (preorder x) -> In m (preorder x) -> laminar n m)).
  intros x IH A n m N M. rewrite preorder_eq in N, M. destruct N as [<-|N], M as [<-|M]; unfold laminar at 1; auto.
  inv A. destruct H as [H1 H2]. assert (H0' := H0).
  refine (forest_laminar _ H0 _ _ _ H2 n m N M).
  rewrite Forall_forall in *. intros c C. apply IH; auto.
Qed.
Lemma laminar_nodes l : wf_forest l ->
  forall n m, In n (flat_map preorder l) -> In m (flat_map preorder l) -> laminar n m.
Proof.
  intros [(a & b & C) F]. eapply forest_laminar; eauto. eapply Forall_impl; [|exact F].
  intros x. apply tree_laminar.
Qed.

(** A node is open at [e], the start of an end tag: its start tag ended at or
    before [e], and it goes on past [e] or was left open and cut off there. *)
Definition open_at (e : nat) (n : node) : Prop :=
  exists s, n_ste n = Some s /\ s <= e /\ (e < n_end n \/ (n_end n = e /\ n_closed n = false)).

(** [end_tags t l] (ParseEnd.v): the end tags among the tokens [l], each as the
    offset of its '</', its name if any, and the end of its closing token. *)
Section C16.
Variables (U : unicode) (t : str) (cs : bool) (void : list str) (l : list token) (roots : list node).
Hypothesis HU : Utf8 t.
Hypothesis HT : doc_tokens U t cs = Ok l.
Hypothesis HP : parse U t cs void = Ok roots.

Lemma same_key_name n name : same_key U cs (key n) name = true <-> same_name U cs (n_tag n) name.
Proof.
  rewrite same_key_node. unfold is_same_tag, same_name. destruct (n_tag n) as [x|], name as [y|]; cbn; try (split; [discriminate|tauto]); try tauto.
  - unfold norm. destruct cs; rewrite beq_eq; tauto.
Qed.

Theorem C16_nearest_open : forall e name q, In (e, name, q) (end_tags t l) ->
  (exists n, In n (doc_nodes roots) /\ open_at e n /\ same_name U cs (n_tag n) name) ->
  exists m, In m (doc_nodes roots) /\ open_at e m /\ same_name U cs (n_tag m) name /\
    n_ets m = Some e /\ n_end m = q /\ n_closed m = true /\
    forall n, In n (doc_nodes roots) -> open_at e n -> n <> m ->
      (* inner ones have another name and end here, unclosed *)
      (n_start m < n_start n /\ n_end n = e /\ n_closed n = false /\ ~ same_name U cs (n_tag n) name) \/
      (* outer ones are not affected *)
      (n_start n < n_start m /\ q <= n_end n /\ n_ets n <> Some e).
Proof.
  intros e name q IE (n0 & N0 & (s0 & S0 & L0 & O0) & M0).
  pose proof (parsed_wf _ _ _ _ _ HU HP) as W.
  assert (T' := HT). unfold doc_tokens in T'. apply bind_ok in T' as ([l' f] & T' & Q). inv Q.
  destruct (parse_end_tags U t cs void HU roots _ f HP T') as (CA & RE & IM).
  destruct (C12_spans _ _ _ _ _ HU HP) as [_ SP]. rewrite Forall_forall in SP.
  destruct (node_facts _ _ _ _ _ HU HP) as (l2 & T2 & NF).
  fold (doc_nodes roots) in *.
  assert (LAM := laminar_nodes _ W). fold (doc_nodes roots) in LAM.
  assert (AN : forall n, In n (doc_nodes roots) -> all_nodes nested n).
  { intros n I. apply all_nodes_of_preorder. destruct W as [_ W]. rewrite Forall_forall in *.
    unfold doc_nodes in I. apply in_flat_map in I as (r & R & I). specialize (W r R).
    apply all_nodes_preorder in W. rewrite Forall_forall in W. intros x X. apply W.
    clear - I X. revert r I. apply (node_induction (fun r => In n (preorder r) -> In x (preorder r))).
    intros r IH I. rewrite preorder_eq in I |- *. destruct I as [->|I].
    - rewrite preorder_eq in X. auto.
    - right. apply in_flat_map in I as (c & C & I). apply in_flat_map. exists c. split; auto.
      rewrite Forall_forall in IH. auto. }
  assert (INS : forall x m, In m (doc_nodes roots) -> In x (flat_map preorder (n_children m)) ->
     n_start m < n_start x /\ n_end x <= n_end m /\ forall e', n_ets m = Some e' -> n_end x <= e').
  { intros x m Im Ix. pose proof (preorder_bounds_strict m x (AN m Im) Ix) as [B1 B2]. repeat split; auto.
    intros e' E'. destruct (SP m Im) as (_ & _ & S3). rewrite E' in S3. destruct (n_ste m); [|contradiction].
    destruct S3 as (_ & _ & _ & S3). apply in_flat_map in Ix as (c & C & Ix).
    pose proof (chain_in _ _ _ _ S3 C). assert (An := AN m Im). inv An. rewrite Forall_forall in H1.
    pose proof (preorder_bounds c (H1 c C) x Ix). lia. }
  destruct (CA e name q IE) as (A1 & A2 & [(m & M1 & M2 & M3 & M4 & M5)|(C1 & C2 & _)]).
  2: { exfalso. fold (doc_nodes roots) in *. destruct O0 as [O0|[O0 O0']].
       - assert (Q := C2 n0 s0 N0 S0 L0 O0). apply same_key_name in M0. congruence.
       - destruct (IM n0 N0 O0' ltac:(congruence)) as [(m & M1 & M2)|Q].
         + rewrite O0 in M2. exact (C1 m M1 M2).
         + lia. }
  exists m. destruct (NF m M1). assert (OM : n_closed m = true /\ exists s, n_ste m = Some s /\ s <= e).
  { destruct ok_close; try congruence. rewrite M2 in H0. inv H0. split; auto. exists s. split; auto.
    eapply chain_le; eauto. }
  destruct OM as [CM (s & SM & LM)]. split; auto. split; [exists s; repeat split; auto; lia|].
  split; [apply same_key_name; auto|]. repeat split; auto.
  intros n N (s1 & S1 & L1 & O1) NE.
  assert (Ls : n_start n < e).
  { destruct (SP n N) as (_ & _ & S3). rewrite S1 in S3. destruct (n_ets n); destruct S3; lia. }
  assert (Lm : n_start m < e).
  { destruct (SP m M1) as (_ & _ & S3). rewrite SM, M2 in S3. lia. }
  destruct (LAM n m N M1) as [Q|[Q|[Q|[Q|Q]]]].
  - congruence.
  - left. destruct (INS _ _ M1 Q) as (B1 & B2 & B3). specialize (B3 e M2).
    assert (n_end n = e /\ n_closed n = false) as [B4 B5] by (destruct O1 as [O1|O1]; [lia|auto]).
    repeat split; auto. intros SN. apply same_key_name in SN.
    rewrite (M5 n N B1 B4 B5) in SN; congruence.
  - right. destruct (INS _ _ N Q) as (B1 & B2 & B3). rewrite M3 in *. repeat split; auto.
    intros Q'. specialize (B3 e Q'). lia.
  - lia.
  - destruct O1; lia.
Qed.

Theorem C16_unmatched : forall e name q, In (e, name, q) (end_tags t l) ->
  (forall n, In n (doc_nodes roots) -> open_at e n -> ~ same_name U cs (n_tag n) name) ->
  forall n, In n (doc_nodes roots) -> n_ets n <> Some e /\ (open_at e n -> e < n_end n).
Proof.
  intros e name q IE NO.
  assert (T' := HT). unfold doc_tokens in T'. apply bind_ok in T' as ([l' f] & T' & Q). inv Q.
  destruct (parse_end_tags U t cs void HU roots _ f HP T') as (CA & RE & IM).
  destruct (C12_spans _ _ _ _ _ HU HP) as [_ SP]. rewrite Forall_forall in SP.
  fold (doc_nodes roots) in *.
  destruct (CA e name q IE) as (A1 & A2 & [(m & M1 & M2 & M3 & M4 & M5)|(C1 & C2 & _)]).
  - exfalso. destruct (SP m M1) as (_ & _ & S3). rewrite M2 in S3. destruct (n_ste m) as [s|] eqn:E; [|auto].
    destruct S3 as (S3 & S4 & S5 & _). apply (NO m M1); [|apply same_key_name; auto].
    exists s. repeat split; auto.
  - intros n N. split; [apply C1; auto|]. intros (s & S & L & [O|[O O']]); auto. exfalso.
    destruct (IM n N O' ltac:(congruence)) as [(m & M1 & M2)|Q]; [|lia].
    rewrite O in M2. exact (C1 m M1 M2).
Qed.

(** Every recorded end tag position is that of an end tag; and an element left
    open ends at the end of the text or where an outer element's end tag begins. *)
Theorem C16_only_end_tags : forall n, In n (doc_nodes roots) ->
  (forall e, n_ets n = Some e -> exists name, In (e, name, n_end n) (end_tags t l)) /\
  (n_closed n = false -> n_ste n <> None ->
     n_end n = length t \/ exists m, In m (doc_nodes roots) /\ n_ets m = Some (n_end n)).
Proof.
  intros n N.
  assert (T' := HT). unfold doc_tokens in T'. apply bind_ok in T' as ([l' f] & T' & Q). inv Q.
  destruct (parse_end_tags U t cs void HU roots _ f HP T') as (CA & RE & IM).
  split.
  - intros e E. eapply RE; eauto.
  - intros C S. destruct (IM n N C S) as [H|H]; auto.
Qed.
End C16.
Print Assumptions C16_nearest_open.
Print Assumptions C16_unmatched.
Print Assumptions C16_only_end_tags.

(** In the example: '</ DIV >' closes the div over the open p; '</x>' matches
    nothing. *)
Example C16_demo : exists l roots, doc_tokens demo_unicode ex_doc false = Ok l /\ ex_parse = Ok roots /\
  end_tags ex_doc l = [(55, Some (bs "DIV"), 63); (70, Some (bs "x"), 74); (74, Some (bs "ul"), 78);
                       (78, Some (bs "ul"), 83); (86, None, 89)] /\
  map (fun n => (n_start n, n_end n, n_closed n))
      (filter (fun n => (n_start n <? 55) && ((55 <? n_end n) || ((n_end n =? 55) && negb (n_closed n)))) (doc_nodes roots))
    = [(0, 63, true); (34, 55, false)] /\
  filter (fun n => match n_ets n with Some e => e =? 70 | None => false end) (doc_nodes roots) = [].
Proof. do 2 eexists. vm_compute. repeat split. Qed.
