(** * C23-C26: document queries *)
From Verif Require Import Base Stream Scanner BaseFacts ScannerFacts ScanStep ScanProps ScanPanic
  ScanShape ScanResume ScanEnter Tree Parser ParseSpec ParseInv ParseOrder PropParse TreeFacts.
From Coq Require Import ZifyBool ZifyNat ZifyN Permutation Sorted.

Lemma chain_widen l : forall a b a' b', chain a l b -> a' <= a -> b <= b' -> chain a' l b'.
Proof.
  induction l as [|c l IH]; intros a b a' b' H A B; cbn [chain] in *; [lia|].
  destruct H as (H1 & H2 & H3). repeat split; [lia|auto|]. eapply IH; eauto.
Qed.

(** Parsed documents are well-formed forests. *)
Lemma span_nested t n : span_ok t n -> nested n.
Proof.
  intros (H1 & H2 & H3). split; auto.
  destruct (n_ste n) as [s|], (n_ets n) as [e|]; try contradiction.
  - destruct H3 as (A & B & C & D). eapply chain_widen; [exact D| |]; lia.
  - destruct H3 as (A & B & C). eapply chain_widen; [exact C| |]; lia.
  - rewrite H3. cbn. lia.
Qed.
Lemma all_nodes_of_preorder P n : Forall P (preorder n) -> all_nodes P n.
Proof.
  revert n. apply (node_induction (fun n => Forall P (preorder n) -> all_nodes P n)).
  intros n IH F. rewrite preorder_eq in F. inv F. constructor; auto.
  rewrite Forall_forall in *. intros c C. apply IH; auto. apply Forall_forall.
  intros x X. apply H2. apply in_flat_map. eauto.
Qed.
Lemma roots_of_doc P roots : Forall P (doc_nodes roots) -> Forall (all_nodes P) roots.
Proof.
  intros F. rewrite Forall_forall in *. intros r R. apply all_nodes_of_preorder. apply Forall_forall.
  intros x X. apply F. apply in_flat_map. eauto.
Qed.
Lemma parsed_wf U t cs void roots : Utf8 t -> parse U t cs void = Ok roots -> wf_forest roots.
Proof.
  intros HU H. destruct (C12_spans _ _ _ _ _ HU H) as [C F]. split; [eauto|].
  apply roots_of_doc. eapply Forall_impl; [|exact F]. apply span_nested.
Qed.

(** ** C23. [path roots ps n] (TreeFacts.v): [n] is reached from the roots through
    its ancestors [ps], outermost first. *)
Theorem C23_find_node_at : forall U t cs void roots o, Utf8 t -> parse U t cs void = Ok roots ->
  exists r, find_node_at roots o = Ok r /\
    match r with
    | None => forall m, In m (doc_nodes roots) -> ~ (n_start m <= o < n_end m)
    | Some (n, ps) =>
        path roots ps n /\ n_start n <= o < n_end n /\
        (* the nodes containing [o], in document order, are the ancestors and the node *)
        filter (fun m => (n_start m <=? o) && (o <? n_end m)) (doc_nodes roots) = ps ++ [n] /\
        (* it is deepest: no child contains [o] *)
        (forall c, In c (n_children n) -> ~ (n_start c <= o < n_end c))
    end.
Proof.
  intros U t cs void roots o HU H. pose proof (parsed_wf _ _ _ _ _ HU H) as W.
  destruct (find_node_at_spec roots o W) as (r & E & F & P). exists r. split; auto.
  change (fun m => (n_start m <=? o) && (o <? n_end m)) with (contains o). unfold doc_nodes.
  destruct r as [[n ps]|].
  - split; auto.
    assert (I : In n (filter (contains o) (flat_map preorder roots))) by (rewrite F, in_app_iff; cbn; auto).
    apply filter_In in I as [I C]. unfold contains in C. split; [lia|]. split; auto.
    intros c Ic Cc.
    (* the child would be listed too, but starts after the last one listed *)
    assert (PC : In c (flat_map preorder roots)).
    { clear - P Ic. induction P as [l n I|l r ps n I P IH].
      - apply in_flat_map. exists n. split; auto. rewrite preorder_eq. right. apply in_flat_map.
        exists c. rewrite preorder_eq. cbn. auto.
      - specialize (IH Ic). apply in_flat_map. exists r. split; auto. rewrite preorder_eq. right. auto. }
    assert (J : In c (ps ++ [n])).
    { rewrite <- F. apply filter_In. split; auto. unfold contains. lia. }
    assert (W' : Forall (all_nodes nested) roots) by apply W.
    assert (AN : all_nodes nested n /\ Forall (fun x => n_start x < n_start n) ps).
    { clear - P W'. induction P as [l n I|l r ps n I P IH].
      - rewrite Forall_forall in W'. auto.
      - rewrite Forall_forall in W'. specialize (W' r I). assert (W2 := W'). inv W'.
        specialize (IH H0) as [IH1 IH2]. split; auto. constructor; auto.
        apply path_in in P as [P _]. apply (preorder_bounds_strict r n W2 P). }
    destruct AN as [AN1 AN2]. inv AN1. destruct H0 as [H0 H2]. pose proof (chain_bounds _ _ _ _ H2 Ic).
    apply in_app_iff in J as [J|[J|[]]]; [|subst; lia].
    rewrite Forall_forall in AN2. apply AN2 in J. lia.
  - intros m I C. assert (J : In m (filter (contains o) (flat_map preorder roots))).
    { apply filter_In. split; auto. unfold contains. lia. }
    rewrite F in J. contradiction.
Qed.
Print Assumptions C23_find_node_at.
Example C23_demo : exists roots n p d, ex_parse = Ok roots /\ find_node_at roots 45 = Ok (Some (n, [d; p])) /\
  n_tag n = Some (bs "img") /\ n_tag p = Some (bs "p") /\ n_tag d = Some (bs "div") /\
  find_node_at roots 79 = Ok None.
Proof. do 4 eexists. vm_compute. repeat split. Qed.

(** ** C24. [goes_below o x] (TreeFacts.v): [x] ends after [o], or it ends where
    its last child ends (it was left open). The result is the first node without
    this property on the way down to the last node starting before [o]. *)
Theorem C24_find_node_before : forall U t cs void roots o, Utf8 t -> parse U t cs void = Ok roots ->
  exists r, find_node_before roots o = Ok r /\
    match r with
    | None => forall m, In m (doc_nodes roots) -> o <= n_start m
    | Some (n, ps) =>
        path roots ps n /\ n_start n < o /\
        (* the last node starting before [o] is [n] or a descendant of [n] *)
        (exists front last, filter (fun m => n_start m <? o) (doc_nodes roots) = front ++ [last] /\
           (last = n \/ (In last (flat_map preorder (n_children n)) /\ ~ goes_below o n))) /\
        Forall (goes_below o) ps
    end.
Proof.
  intros U t cs void roots o HU H. pose proof (parsed_wf _ _ _ _ _ HU H) as W.
  destruct (find_node_before_spec roots o W) as (r & E & F). exists r. split; auto.
  destruct r as [[n ps]|]; auto. destruct F as (P & L & G & front & back & F1 & F2 & F3).
  split; auto. split; auto. change (fun m => n_start m <? o) with (before o). unfold doc_nodes. split.
  - assert (Q : back = [] \/ exists b' x, back = b' ++ [x]).
    { clear. induction back as [|a b [->|(b' & x & ->)]]; auto; right; [exists [], a; auto|exists (a :: b'), x; auto]. }
    destruct Q as [->|(b' & x & ->)].
    + exists front, n. auto.
    + exists (front ++ n :: b'), x. split; [rewrite F1, <- app_assoc; auto|]. right. split.
      * apply F2. rewrite in_app_iff. cbn. auto.
      * apply F3. destruct b'; discriminate.
  - eapply Forall_impl; [|exact G]. cbn. tauto.
Qed.
Print Assumptions C24_find_node_before.
Example C24_demo : exists roots n d p, ex_parse = Ok roots /\
  find_node_before roots 40 = Ok (Some (p, [d])) /\ find_node_before roots 62 = Ok (Some (n, [d; p])) /\
  n_tag n = Some (bs "p") /\ n_tag p = Some (bs "p") /\ n_tag d = Some (bs "div") /\
  find_node_before roots 0 = Ok None.
Proof. do 4 eexists. vm_compute. repeat split. Qed.

(** ** C25 *)
Theorem C25_find_root_at : forall U t cs void roots o, Utf8 t -> parse U t cs void = Ok roots ->
  match find_root_at roots o with
  | Some r => o <= n_end r /\ exists earlier later, roots = earlier ++ r :: later /\
      Forall (fun x => n_end x < o) earlier /\ Forall (fun x => n_end r <= n_start x) later
  | None => Forall (fun x => n_end x < o) roots
  end.
Proof.
  intros U t cs void roots o HU H. destruct (C12_spans _ _ _ _ _ HU H) as [C _].
  pose proof (find_root_at_spec roots o) as F. destruct (find_root_at roots o); auto.
  destruct F as (l1 & l2 & -> & F1 & F2). split; auto. exists l1, l2. repeat split; auto.
  assert (Q : exists m, chain m (n :: l2) (length t)).
  { revert C. generalize 0. clear. induction l1 as [|x l1 IH]; intros a C; [eauto|].
    destruct C as (_ & _ & C). eapply IH; eauto. }
  destruct Q as (m & Q1 & Q2 & Q3). apply Forall_forall. intros x X.
  apply (chain_bounds _ _ _ _ Q3) in X. lia.
Qed.
Print Assumptions C25_find_root_at.
Example C25_demo : exists roots n, ex_parse = Ok roots /\ find_root_at roots 80 = Some n /\
  n_start n = 83 /\ find_root_at roots 95 = None.
Proof. do 2 eexists. vm_compute. repeat split. Qed.

(** ** C26 *)
Lemma tag_in_some t ks x : tag_in t ks = Some x -> exists k, In k ks /\ tk_type k = StartTag /\ tk_text t k = x.
Proof.
  induction ks as [|k ks IH]; cbn [tag_in]; [discriminate|]. destruct (tag_in t ks) eqn:E.
  - intros Q. inv Q. destruct IH as (k' & K & K'); auto. exists k'. cbn. auto.
  - destruct (token_eqb (tk_type k) StartTag) eqn:B; [|discriminate]. intros Q. inv Q.
    apply token_eqb_eq in B. exists k. cbn. auto.
Qed.
(** A complete start tag has room for '<', the name and '>'. *)
Lemma start_tag_room U t cs void l roots n : Utf8 t -> doc_tokens U t cs = Ok l ->
  parse U t cs void = Ok roots -> In n (doc_nodes roots) -> forall s, n_ste n = Some s ->
  n_start n + 2 <= s /\ forall x, n_tag n = Some x -> n_start n + 2 + length x <= s.
Proof.
  intros HU T H I s S. destruct (doc_ok _ _ _ _ _ _ HU T H) as (_ & F & _).
  rewrite Forall_forall in F. destruct (F n I). clear F.
  destruct ok_start as (pre & op & ks & post & A1 & A2 & A3 & A4 & A5 & A6 & A7 & A8 & A9).
  pose proof (doc_tiles _ _ _ _ HU T) as TL.
  assert (SH : Forall (token_shape U t true) l).
  { unfold doc_tokens in T. apply bind_ok in T as ([l' f] & T & E). inv E.
    revert T. apply tokens_forall. intros a b. apply scan_shape. auto. }
  rewrite Forall_forall in SH. subst l.
  assert (O : tk_off op < tk_end op).
  { assert (Q := SH op). specialize (Q ltac:(rewrite in_app_iff; cbn; auto)).
    unfold token_shape in Q. rewrite A2 in Q. apply (f_equal (@length N)) in Q.
    destruct (Nat.lt_ge_cases (tk_off op) (tk_end op)); auto. exfalso.
    unfold sub in Q. replace (tk_end op - tk_off op) with 0 in Q by lia. cbn in Q. lia. }
  apply tiles_app in TL as (m & _ & TL). cbn [tiles] in TL. destruct TL as (T1 & T2 & T3 & T4).
  apply tiles_app in T4 as (m' & T4 & T5). rewrite S in A9. destruct post as [|k post]; [discriminate|].
  cbn [ste_of] in A9.
  destruct (token_eqb (tk_type k) StartTagSelfClose || token_eqb (tk_type k) StartTagClose && (tk_off k <? tk_end k)) eqn:B;
    [|discriminate]. inv A9. cbn [tiles] in T5. destruct T5 as (T5 & T6 & T7 & T8).
  assert (K : tk_off k < tk_end k).
  { apply orb_true_iff in B as [B|B]; [|lia]. apply token_eqb_eq in B.
    assert (Q := SH k). specialize (Q ltac:(rewrite in_app_iff; cbn; rewrite in_app_iff; cbn; auto)).
    unfold token_shape in Q. rewrite B in Q. apply (f_equal (@length N)) in Q.
    destruct (Nat.lt_ge_cases (tk_off k) (tk_end k)); auto. exfalso.
    unfold sub in Q. replace (tk_end k - tk_off k) with 0 in Q by lia. cbn in Q. lia. }
  pose proof (tiles_le _ _ _ T4). split; [lia|]. intros x X. rewrite A7 in X.
  apply tag_in_some in X as (kt & K1 & K2 & K3). pose proof (tiles_bounds _ _ _ _ T4 K1).
  subst x. unfold tk_text. rewrite sub_length; lia.
Qed.

Section C26.
Variables (U : unicode) (t : str) (cs : bool) (void : list str) (roots : list node) (n : node).
Hypothesis HU : Utf8 t.
Hypothesis HP : parse U t cs void = Ok roots.
Hypothesis HI : In n (doc_nodes roots).

(** It panics exactly inside a node without name, and after the name of a node
    whose start tag is incomplete. *)
Theorem C26_panics : forall o,
  (exists r, find_token_type_in_node n o = Panic r) <->
  n_start n <= o < n_end n /\
  (n_tag n = None \/
   exists x, n_tag n = Some x /\ n_ste n = None /\ n_start n + 1 + length x <= o).
Proof.
  intros o. destruct (parse_tokens _ _ _ _ _ HU HP) as (l & T).
  pose proof (start_tag_room _ _ _ _ _ _ _ HU T HP HI) as R.
  destruct (C12_spans _ _ _ _ _ HU HP) as [_ SP]. rewrite Forall_forall in SP.
  destruct (SP n HI) as (S1 & S2 & S3). unfold find_token_type_in_node.
  destruct ((o <? n_start n) || (n_end n <=? o)) eqn:E1.
  { split; [intros [r Q]; discriminate|]. intros [Q _]. lia. }
  destruct (n_tag n) as [x|]; cbn [unwrap bind].
  2: { split; [intros _; split; [lia|auto]|eauto]. }
  destruct (n_start n =? o) eqn:E2.
  { split; [intros [r Q]; discriminate|]. intros [_ [Q|(y & Y1 & Y2 & Y3)]]; [discriminate|]. lia. }
  destruct (o <? n_start n + 1 + length x) eqn:E3.
  { split; [intros [r Q]; discriminate|]. intros [_ [Q|(y & Y1 & Y2 & Y3)]]; [discriminate|]. inv Y1. lia. }
  destruct (n_ste n) as [s|]; cbn [unwrap bind].
  2: { split; [|eauto]. intros _. split; [lia|]. right. exists x. repeat split; auto. lia. }
  specialize (R s eq_refl) as [R1 R2]. specialize (R2 x eq_refl).
  split; [|intros [_ [Q|(y & Y1 & Y2 & Y3)]]; discriminate].
  intros [r Q]. exfalso. unfold usub in Q.
  destruct (s <=? o).
  - destruct (n_ets n) as [e|].
    + destruct (o <? e); [discriminate|]. destruct ((o =? e) || (o =? e + 1)); [discriminate|].
      replace (1 <=? n_end n) with true in Q by lia. cbn [bind] in Q. destruct (o <? n_end n - 1); discriminate.
    + destruct (s =? n_end n) eqn:E; [|discriminate].
      replace (2 <=? n_end n) with true in Q by lia. cbn [bind] in Q. destruct (n_end n - 2 <=? o); discriminate.
  - destruct (s =? n_end n).
    + replace (2 <=? s) with true in Q by lia. cbn [bind] in Q. destruct (s - 2 <=? o); discriminate.
    + replace (1 <=? s) with true in Q by lia. cbn [bind] in Q. destruct (s - 1 <=? o); discriminate.
Qed.

(** The classification of a node with name [x]. *)
Theorem C26_classify : forall o,
  (~ (n_start n <= o < n_end n) -> find_token_type_in_node n o = Ok Unknown) /\
  forall x, n_tag n = Some x ->
  (o = n_start n -> find_token_type_in_node n o = Ok StartTagOpen) /\
  (n_start n < o < n_start n + 1 + length x -> o < n_end n -> find_token_type_in_node n o = Ok StartTag) /\
  (forall s, n_ste n = Some s -> n_start n + 1 + length x <= o ->
     (s < n_end n -> o < s -> find_token_type_in_node n o = Ok (if o =? s - 1 then StartTagClose else Unknown)) /\
     (s = n_end n -> o < s -> find_token_type_in_node n o = Ok (if s - 2 <=? o then StartTagSelfClose else Unknown)) /\
     (n_ets n = None -> s <= o < n_end n -> find_token_type_in_node n o = Ok Unknown) /\
     (forall e, n_ets n = Some e ->
        (s <= o < e -> find_token_type_in_node n o = Ok Content) /\
        (e <= o < n_end n -> find_token_type_in_node n o =
           Ok (if o <? e + 2 then EndTagOpen else if o =? n_end n - 1 then EndTagClose else EndTag)))).
Proof.
  intros o. destruct (parse_tokens _ _ _ _ _ HU HP) as (l & T).
  pose proof (start_tag_room _ _ _ _ _ _ _ HU T HP HI) as R.
  destruct (C12_spans _ _ _ _ _ HU HP) as [_ SP]. rewrite Forall_forall in SP.
  destruct (SP n HI) as (S1 & S2 & S3). unfold find_token_type_in_node.
  destruct ((o <? n_start n) || (n_end n <=? o)) eqn:E1.
  { split; auto. intros x X. split; [lia|]. split; [lia|]. intros s S. rewrite S in *.
    specialize (R s eq_refl) as [R1 R2]. specialize (R2 x X).
    split; [lia|]. split; [lia|]. split; [lia|]. intros e E. rewrite E in S3. split; lia. }
  split; [lia|]. intros x X. rewrite X. cbn [unwrap bind].
  split. { intros ->. rewrite Nat.eqb_refl. auto. }
  split. { intros Q _. replace (n_start n =? o) with false by lia.
           replace (o <? n_start n + 1 + length x) with true by lia. auto. }
  intros s S Q. rewrite S in *. specialize (R s eq_refl) as [R1 R2]. specialize (R2 x X).
  replace (n_start n =? o) with false by lia. replace (o <? n_start n + 1 + length x) with false by lia.
  cbn [unwrap bind]. unfold usub. split; [|split; [|split]].
  - intros L Lo. replace (s <=? o) with false by lia. replace (s =? n_end n) with false by lia.
    replace (1 <=? s) with true by lia. cbn [bind].
    destruct (o =? s - 1) eqn:E; [replace (s - 1 <=? o) with true by lia|replace (s - 1 <=? o) with false by lia]; auto.
  - intros L Lo. replace (s <=? o) with false by lia. replace (s =? n_end n) with true by lia.
    replace (2 <=? s) with true by lia. cbn [bind]. destruct (s - 2 <=? o); auto.
  - intros EN Lo. replace (s <=? o) with true by lia. rewrite EN.
    replace (s =? n_end n) with false by lia. auto.
  - intros e EN. rewrite EN in *. split; intros Lo.
    + replace (s <=? o) with true by lia. replace (o <? e) with true by lia. auto.
    + replace (s <=? o) with true by lia. replace (o <? e) with false by lia.
      destruct (o <? e + 2) eqn:E.
      * replace ((o =? e) || (o =? e + 1)) with true by lia. auto.
      * replace ((o =? e) || (o =? e + 1)) with false by lia.
        replace (1 <=? n_end n) with true by lia. cbn [bind].
        destruct (o =? n_end n - 1) eqn:E'.
        -- replace (o <? n_end n - 1) with false by lia. auto.
        -- replace (o <? n_end n - 1) with true by lia. auto.
Qed.
End C26.
Print Assumptions C26_panics.
Print Assumptions C26_classify.

(** Both panics happen on ordinary unfinished input. *)
Example C26_demo_panics : exists roots n m, parse demo_unicode (bs "<div <>") false html5_void = Ok roots /\
  doc_nodes roots = [n; m] /\ n_tag n = Some (bs "div") /\
  find_token_type_in_node n 4 = Panic PUnwrap /\ find_token_type_in_node m 5 = Panic PUnwrap /\
  find_token_type_in_node n 3 = Ok StartTag.
Proof. do 3 eexists. vm_compute. repeat split. Qed.
(** A void element (or an element left open right after its start tag) has its
    '>' classified as '/>'. *)
Theorem C26_void_close_refuted : exists t roots n,
  parse demo_unicode t false html5_void = Ok roots /\ In n (doc_nodes roots) /\
  nth_error t 3 = Some GT /\ (exists k l, doc_tokens demo_unicode t false = Ok l /\ In k l /\
     tk_off k = 3 /\ tk_end k = 4 /\ tk_type k = StartTagClose) /\
  find_token_type_in_node n 3 = Ok StartTagSelfClose.
Proof.
  exists (bs "<br>"). do 2 eexists. split; [vm_compute; reflexivity|]. split; [left; reflexivity|].
  split; [reflexivity|]. split; [|vm_compute; reflexivity].
  do 2 eexists. split; [vm_compute; reflexivity|]. split; [right; right; left; reflexivity|]. auto.
Qed.
Print Assumptions C26_void_close_refuted.
Example C26_demo : exists roots n, ex_parse = Ok roots /\ nth_error (doc_nodes roots) 0 = Some n /\
  map (find_token_type_in_node n) [0; 1; 4; 29; 30; 54; 55; 56; 57; 62; 63] =
  map Ok [StartTagOpen; StartTag; Unknown; StartTagClose; Content; Content; EndTagOpen; EndTagOpen; EndTag; EndTagClose; Unknown].
Proof. do 2 eexists. vm_compute. repeat split. Qed.
