(** * Which element an end tag closes (for C16). *)
From Verif Require Import Base Stream Scanner BaseFacts ScannerFacts ScanStep ScanProps ScanPanic ScanShape
  ScanResume Tree Parser ParseSpec ParseInv ParseOrder.
From Coq Require Import ZifyBool ZifyNat ZifyN.

(** The end tags of a token list: start of '</', name if any, end of the closing
    token. *)
Definition et_step (t : str) (a : (option nat * option str) * list (nat * option str * nat)) (k : token) :=
  let '((o, name), acc) := a in
  match tk_type k with
  | EndTagOpen => ((Some (tk_off k), None), acc)
  | EndTag => ((o, Some (tk_text t k)), acc)
  | EndTagClose => match o with
                   | Some e => ((o, name), acc ++ [(e, name, tk_end k)])
                   | None => a
                   end
  | _ => a
  end.
Definition et_run (t : str) (ts : list token) := fold_left (et_step t) ts ((None, None), []).
Definition end_tags (t : str) (ts : list token) : list (nat * option str * nat) := snd (et_run t ts).
Lemma et_run_snoc t ts k : et_run t (ts ++ [k]) = et_step t (et_run t ts) k.
Proof. unfold et_run. rewrite fold_left_app. reflexivity. Qed.

(** ** The zipper: finished and open nodes *)
Fixpoint zdone (c : node) (ps : list node) : list node :=
  match ps with
  | [] => flat_map preorder (n_children c)
  | p :: ps' => zdone p ps' ++ flat_map preorder (n_children c)
  end.
Definition key (n : node) := (n_tag n, n_ste n).
Fixpoint zopen (c : node) (ps : list node) : list (option str * option nat) :=
  match ps with
  | [] => []
  | p :: ps' => key c :: zopen p ps'
  end.

Lemma zdone_same c c' ps : n_children c' = n_children c -> zdone c' ps = zdone c ps.
Proof. intros H. destruct ps; cbn [zdone]; rewrite H; auto. Qed.
Lemma zdone_pop par c ps n : In n (zdone (add_child par c) ps) <-> In n (zdone c (par :: ps)) \/ n = c.
Proof.
  assert (Q : In n (flat_map preorder (n_children par ++ [c])) <->
     In n (flat_map preorder (n_children par)) \/ n = c \/ In n (flat_map preorder (n_children c))).
  { rewrite flat_map_app, in_app_iff. cbn [flat_map]. rewrite app_nil_r, preorder_eq. cbn [In].
    intuition congruence. }
  cbn [zdone]. destruct ps; cbn [zdone add_child n_children set_children]; rewrite ?in_app_iff, Q; tauto.
Qed.
Lemma zopen_pop par c ps : zopen (add_child par c) ps = zopen par ps.
Proof. destruct ps; cbn [zopen]; auto. Qed.
Lemma zopen_same c c' ps : key c' = key c -> zopen c' ps = zopen c ps.
Proof. intros H. destruct ps; cbn [zopen]; rewrite ?H; auto. Qed.


Section End.
Variable U : unicode.
Variable t : str.
Variable cs : bool.
Variable void : list str.
Hypothesis HU : Utf8 t.
Notation len := (length t).
Notation J := (J U t cs void).
Notation outcome := (outcome U t true cs).

Definition same_key (k : option str * option nat) (name : option str) : bool :=
  is_same_tag U cs (set_tag (fst k) (node_new 0 0)) (option_map (norm U cs) name).
Lemma same_key_node n name : same_key (key n) name = is_same_tag U cs n (option_map (norm U cs) name).
Proof. reflexivity. Qed.

(** What happens to the end tag [name] at [e]..[q], given finished nodes [D] and
    open nodes [O]. *)
Definition closes (D : node -> Prop) (e : nat) (name : option str) (q : nat) : Prop :=
  exists m, D m /\ n_ets m = Some e /\ n_end m = q /\ same_key (key m) name = true /\
    forall n, D n -> n_start m < n_start n -> n_end n = e -> n_closed n = false -> n_ste n <> None ->
              same_key (key n) name = false.
Definition ignored (D : node -> Prop) (O : list (option str * option nat)) (e : nat) (name : option str) : Prop :=
  (forall m, D m -> n_ets m <> Some e) /\
  (forall n s, D n -> n_ste n = Some s -> s <= e -> e < n_end n -> same_key (key n) name = false) /\
  (forall x s, In (x, Some s) O -> s <= e -> same_key (x, Some s) name = false).
Definition cases (E : list (nat * option str * nat)) (hi : nat) (D : node -> Prop) O : Prop :=
  forall e name q, In (e, name, q) E ->
    e < q /\ q <= hi /\ (closes D e name q \/ ignored D O e name).
Definition recorded (E : list (nat * option str * nat)) (D : node -> Prop) : Prop :=
  forall m e, D m -> n_ets m = Some e -> exists name, In (e, name, n_end m) E.
Definition left_open (hi : nat) (D : node -> Prop) : Prop :=
  forall n, D n -> n_closed n = false -> n_ste n <> None -> n_end n < hi.

(** An element that was never closed ended at an end tag closing an outer one. *)
Definition implied (X : nat -> Prop) (D : node -> Prop) : Prop :=
  forall n, D n -> n_closed n = false -> n_ste n <> None ->
    (exists m, D m /\ n_ets m = Some (n_end n)) \/ X (n_end n).
Lemma implied_add X (D D' : node -> Prop) c : implied X D -> (forall n, D' n <-> D n \/ n = c) ->
  (n_closed c = false -> n_ste c <> None -> X (n_end c)) -> implied X D'.
Proof.
  intros H HD HX n N C S. apply HD in N as [N| ->]; auto.
  destruct (H n N C S) as [(m & M & Q)|Q]; auto. left. exists m. rewrite HD. auto.
Qed.
Lemma implied_weaken (X X' : nat -> Prop) D : implied X D -> (forall e, X e -> X' e) -> implied X' D.
Proof. intros H HX n N C S. destruct (H n N C S); auto. Qed.

Lemma cases_weaken E hi hi' D O : cases E hi D O -> hi <= hi' -> cases E hi' D O.
Proof. intros H L e name q I. destruct (H e name q I) as (A & B & C). repeat split; auto. lia. Qed.
Lemma cases_open E hi D O O' : cases E hi D O ->
  (forall x s, In (x, Some s) O' -> In (x, Some s) O \/ hi <= s) -> cases E hi D O'.
Proof.
  intros H L e name q I. destruct (H e name q I) as (A & B & C). repeat split; auto.
  destruct C as [C|(C1 & C2 & C3)]; auto. right. repeat split; auto.
  intros x s X S. destruct (L x s X); auto. lia.
Qed.
(** A node is finished. *)
Lemma cases_add E hi D O D' O' c :
  cases E hi D O -> (forall n, D' n <-> D n \/ n = c) ->
  (forall x, In x O' -> In x O) ->
  (forall e, n_ets c = Some e -> hi <= e) -> hi <= n_end c ->
  (forall s, n_ste c = Some s -> In (key c) O \/ hi <= s) ->
  cases E hi D' O'.
Proof.
  intros H HD HO He Hn Hs e name q I. destruct (H e name q I) as (A & B & C). repeat split; auto.
  destruct C as [(m & M1 & M2 & M3 & M4 & M5)|(C1 & C2 & C3)].
  - left. exists m. rewrite HD. repeat split; auto.
    intros n N. apply HD in N as [N| ->]; auto. intros _ Q. lia.
  - right. repeat split.
    + intros m M Q. apply HD in M as [M| ->]; [apply (C1 m); auto|]. apply He in Q. lia.
    + intros n s N. apply HD in N as [N| ->]; [apply C2; auto|]. intros S L _.
      destruct (Hs s S) as [X|X]; [|lia]. unfold key in *. rewrite S in *. apply C3; auto.
    + intros x s X. apply HO in X. auto.
Qed.

(** Facts about finished nodes from the parser's invariant. *)
Notation pdone p := (fun n => In n (zdone (cur p) (parents p))).
Notation popen p := (zopen (cur p) (parents p)).

Lemma chain_in lo l hi c : chain lo l hi -> In c l -> n_end c <= hi.
Proof.
  revert lo; induction l as [|x l IH]; intros lo H I; [contradiction|]. destruct H as (H1 & H2 & H3).
  destruct I as [->|I]; [eapply chain_le; eauto|eauto].
Qed.
Lemma sub_in P n m : all_nodes P n -> In m (preorder n) -> P m.
Proof. intros A I. apply all_nodes_preorder in A. rewrite Forall_forall in A. auto. Qed.

Lemma node_ok_ends done ts n : node_ok U t cs void done ts n ->
  Forall (fun c => n_end c <= n_end n) (n_children n) /\ forall e, n_ets n = Some e -> e < n_end n.
Proof.
  intros []. apply (and_comm). destruct ok_close.
  - split; [intros e' E; rewrite H0 in E; inv E; auto|]. apply Forall_forall. intros c C.
    pose proof (chain_in _ _ _ _ H4 C). lia.
  - rewrite H0, H2. split; [discriminate|constructor].
  - rewrite H0, H2. split; [discriminate|constructor].
  - rewrite H0. split; [discriminate|]. apply Forall_forall. intros c C.
    pose proof (chain_in _ _ _ _ H4 C). lia.
  - rewrite H0, H2. split; [discriminate|constructor].
Qed.
Lemma tree_ends done ts n : all_nodes (node_ok U t cs void done ts) n ->
  forall m, In m (preorder n) -> n_end m <= n_end n.
Proof.
  revert n. apply (node_induction (fun n => all_nodes (node_ok U t cs void done ts) n ->
    forall m, In m (preorder n) -> n_end m <= n_end n)).
  intros n IH A m I. rewrite preorder_eq in I. destruct I as [->|I]; auto.
  apply in_flat_map in I as (c & C & I). inv A. apply node_ok_ends in H as [H _].
  rewrite Forall_forall in *. specialize (IH c C (H0 c C) m I). specialize (H c C). lia.
Qed.

Lemma stack_done done ts hi c ps : stack_ok U t cs void done ts hi c ps ->
  forall n, In n (zdone c ps) -> n_end n <= hi /\ forall e, n_ets n = Some e -> e < n_end n.
Proof.
  assert (CH : forall lo l hi n, chain lo l hi -> Forall (all_nodes (node_ok U t cs void done ts)) l ->
     In n (flat_map preorder l) -> n_end n <= hi /\ forall e, n_ets n = Some e -> e < n_end n).
  { clear. intros lo l hi n C F I. apply in_flat_map in I as (c & Ic & I).
    rewrite Forall_forall in F. specialize (F c Ic). pose proof (chain_in _ _ _ _ C Ic).
    pose proof (tree_ends _ _ _ F _ I). split; [lia|].
    eapply sub_in in F; eauto. apply node_ok_ends in F as [_ F]. auto. }
  revert hi c; induction ps as [|p ps IH]; intros hi c S n I; cbn [stack_ok zdone] in *.
  - destruct S. eapply CH; eauto.
  - destruct S as [S1 S2]. apply in_app_iff in I as [I|I].
    + destruct (IH _ _ S2 n I) as [A B]. split; auto. destruct S1.
      destruct op_ste as (s & E1 & E2 & E3). apply chain_le in E3. lia.
    + destruct S1. destruct op_ste as (s & E1 & E2 & E3). eapply CH; eauto.
Qed.

(** ** Implicit closing *)
Lemma close_inner_end ts e name E : is_prefix (bs "</") (skipn e t) = true ->
  forall k p, stack_ok U t cs void true ts e (cur p) (parents p) -> end_tag_start p = Some e ->
  end_tag_name p = option_map (norm U cs) name ->
  find_open U cs (cur p) (parents p) (end_tag_name p) = Some k ->
  cases E e (pdone p) (popen p) -> recorded E (pdone p) ->
  (forall n, pdone p n -> n_closed n = false -> n_ste n <> None -> n_end n < e \/ same_key (key n) name = false) ->
  implied (eq e) (pdone p) ->
  exists p', close_inner k p = Ok p' /\
    stack_ok U t cs void true ts e (cur p') (parents p') /\ parents p' <> [] /\
    end_tag_start p' = Some e /\ same_key (key (cur p')) name = true /\
    cases E e (pdone p') (popen p') /\ recorded E (pdone p') /\ implied (eq e) (pdone p') /\
    (forall n, pdone p' n -> n_closed n = false -> n_ste n <> None -> n_end n < e \/ same_key (key n) name = false).
Proof.
  intros HP. induction k as [|k IH]; intros [c ps es en pd] S E1 EN F CA RE LO IM;
    cbn [cur parents end_tag_start end_tag_name] in *.
  - exists (mkP c ps es en pd). destruct ps as [|par ps]; cbn [find_open] in F; [discriminate|].
    destruct (is_same_tag U cs c en) eqn:Q.
    + split; [reflexivity|]. cbn [cur parents]. split; auto. split; [discriminate|]. split; auto.
      split; [rewrite same_key_node; congruence|]. auto.
    + destruct (find_open U cs par ps en); discriminate.
  - destruct ps as [|par ps]; cbn [find_open] in F; [discriminate|].
    destruct (is_same_tag U cs c en) eqn:Q; [discriminate|].
    destruct (find_open U cs par ps en) as [k'|] eqn:F'; [|discriminate]. inv F.
    cbn [close_inner end_tag_start]. cbn [unwrap bind pop upd_cur parents cur].
    destruct S as [S1 S2].
    pose proof (open_finish _ _ _ _ _ _ _ _ S1 (or_intror HP)) as A.
    assert (S1' := S1). destruct S1'.
    assert (HD : forall n, In n (zdone (add_child par (set_closed false (set_end e c))) ps) <->
                           In n (zdone c (par :: ps)) \/ n = set_closed false (set_end e c)).
    { intros n. rewrite zdone_pop. cbn [zdone n_children set_closed set_end]. tauto. }
    apply IH; cbn [cur parents end_tag_start end_tag_name]; auto.
    + eapply stack_pop; eauto.
    + destruct ps; cbn [find_open] in *; auto.
    + eapply (cases_add E e _ _ _ _ (set_closed false (set_end e c))); [exact CA|exact HD| | | |].
      * intros x X. cbn [zopen]. right. rewrite zopen_pop in X. auto.
      * cbn. congruence.
      * cbn. lia.
      * intros s _. left. cbn [zopen]. left. reflexivity.
    + intros m e' M Q'. apply HD in M as [M| ->]; [eapply RE; eauto|]. cbn in Q'. congruence.
    + intros n N C' St. apply HD in N as [N| ->]; [apply LO; auto|]. right.
      change (key (set_closed false (set_end e c))) with (key c). rewrite same_key_node. auto.
    + eapply implied_add; [exact IM|exact HD|]. auto.
Qed.

(** ** The invariant *)
Definition in_end_tag (s : sstate) : bool :=
  match s with AfterOpeningEndTag | WithinEndTag => true | _ => false end.
Definition hi_of (sc : scanner) (p : pstate) : nat :=
  if in_end_tag (st sc) then match end_tag_start p with Some e => e | None => 0 end else pos sc.
Record K (ts : list token) (sc : scanner) (p : pstate) : Prop := {
  k_run : exists name, et_run t ts = ((end_tag_start p, name), end_tags t ts) /\
            end_tag_name p = option_map (norm U cs) name;
  k_cases : cases (end_tags t ts) (hi_of sc p) (pdone p) (popen p);
  k_rec : recorded (end_tags t ts) (pdone p);
  k_left : left_open (hi_of sc p) (pdone p);
  k_imp : implied (fun _ => False) (pdone p)
}.

(** Which tokens come from which states. *)
Lemma outcome_states sc sc' : outcome sc sc' -> tok sc' <> EOS ->
  match tok sc' with
  | EndTagOpen => in_end_tag (st sc) = false /\ st sc' = AfterOpeningEndTag
  | EndTag => in_end_tag (st sc) = true /\ st sc' = WithinEndTag
  | EndTagClose => in_end_tag (st sc) = true /\ in_end_tag (st sc') = false
  | StartTag | StartTagClose | StartTagSelfClose | AttributeName | AttributeValue | DelimiterAssign =>
      in_tag (st sc) = true /\ in_end_tag (st sc') = false
  | _ => in_end_tag (st sc') = true -> in_end_tag (st sc) = true
  end.
Proof.
  assert (CL : content_like t sc -> in_end_tag (st sc) = false).
  { intros [H|[(H & _)|(H & _)]]; rewrite H; auto. }
  intros H NE. inv H; cbn [tok finish st] in *; try congruence;
    try (split; [apply CL; auto|reflexivity]);
    try (intros Q; exact Q || discriminate Q);
    try (match goal with E : st sc = _ |- _ => rewrite E end; cbn; auto; fail).
  - destruct H0 as [-> | ->]; auto.
  - assert (I : in_tag (st sc) = true) by (inv H1; match goal with E : st _ = _ |- _ => rewrite E end; auto).
    assert (I' : in_end_tag (st sc) = false) by (destruct (st sc); auto; discriminate).
    pose proof (enter_tag_st _ _ _ H1) as ES.
    inv H2; cbn [tok finish st]; auto; rewrite ?ES; auto; try discriminate.
    split; auto. unfold after_close. destruct (opt_beq _ _); [destruct (last_type sc1); auto|].
    destruct (opt_beq _ _); auto.
  - destruct H3 as [->|[-> _]]; cbn; discriminate.
Qed.

Lemma J_end ts sc p : J ts sc p -> in_end_tag (st sc) = true ->
  exists e, end_tag_start p = Some e /\ e + 2 <= pos sc /\ is_prefix (bs "</") (skipn e t) = true /\
    stack_ok U t cs void true ts e (cur p) (parents p).
Proof.
  intros [L H] I. destruct (st sc); try discriminate.
  - destruct H as (e & S & E1 & E2 & E3 & E4). exists e. repeat split; auto. destruct E4; auto.
  - destruct H as (e & a & S & E1 & E3 & E4 & E5). exists e. repeat split; auto.
    destruct E4 as (Q & _). destruct E5 as [(x & b & X1 & (X2 & _) & X3 & (X4 & _))|(X1 & X2 & (F1 & _))]; lia.
Qed.
Lemma J_tag ts sc p : J ts sc p -> in_tag (st sc) = true -> exists ks, tag_inv U t cs void ts ks (pos sc) p.
Proof.
  intros [L H] I. destruct (st sc); try discriminate.
  - destruct H as (ks & TI & _). eauto.
  - destruct H as (ks & TI & _). eauto.
  - destruct H as (ks & TI & _). eauto.
  - destruct H as (ks & TI & _). eauto.
Qed.

Lemma K_keep ts sc p k sc' p' : K ts sc p -> hi_of sc p <= hi_of sc' p' ->
  (exists name, et_run t (ts ++ [k]) = ((end_tag_start p', name), end_tags t ts) /\
     end_tag_name p' = option_map (norm U cs) name) ->
  (forall n, pdone p' n <-> pdone p n) ->
  (forall x s, In (x, Some s) (popen p') -> In (x, Some s) (popen p) \/ hi_of sc p <= s) ->
  K (ts ++ [k]) sc' p'.
Proof.
  intros [] HI (name & R1 & R2) HD HO.
  assert (EE : end_tags t (ts ++ [k]) = end_tags t ts) by (unfold end_tags at 1; rewrite R1; auto).
  constructor; rewrite ?EE.
  - exists name. auto.
  - eapply cases_weaken; [|exact HI]. apply (cases_open _ _ _ (popen p)); auto.
    intros e nm q I. destruct (k_cases0 e nm q I) as (A & B & C). repeat split; auto.
    destruct C as [(m & M1 & M2 & M3 & M4 & M5)|(C1 & C2 & C3)].
    + left. exists m. rewrite HD. repeat split; auto. intros n N. apply HD in N. auto.
    + right. split; [|split; auto].
      * intros n N. apply HD in N. auto.
      * intros n s N. apply HD in N. exact (C2 n s N).
  - intros m e M. apply HD in M. auto.
  - intros n N C S. apply HD in N. specialize (k_left0 n N C S). lia.
  - intros n N C S. apply HD in N. destruct (k_imp0 n N C S) as [(m & M & Q)|[]].
    left. exists m. rewrite HD. auto.
Qed.
Lemma K_fin ts sc p k sc' p' c : K ts sc p -> hi_of sc p <= hi_of sc' p' ->
  (exists name, et_run t (ts ++ [k]) = ((end_tag_start p', name), end_tags t ts) /\
     end_tag_name p' = option_map (norm U cs) name) ->
  (forall n, pdone p' n <-> pdone p n \/ n = c) ->
  (forall x, In x (popen p') -> In x (popen p)) ->
  n_ets c = None -> hi_of sc p <= n_end c -> (n_closed c = false -> n_ste c = None) ->
  (forall s, n_ste c = Some s -> hi_of sc p <= s) ->
  K (ts ++ [k]) sc' p'.
Proof.
  intros [] HI (name & R1 & R2) HD HO E1 E2 E3 E4.
  assert (EE : end_tags t (ts ++ [k]) = end_tags t ts) by (unfold end_tags at 1; rewrite R1; auto).
  constructor; rewrite ?EE.
  - exists name. auto.
  - eapply cases_weaken; [|exact HI]. eapply (cases_add _ _ _ _ _ _ c); eauto. congruence.
  - intros m e M Q. apply HD in M as [M| ->]; [auto|congruence].
  - intros n N C S. apply HD in N as [N| ->]; [specialize (k_left0 n N C S); lia|]. tauto.
  - eapply implied_add; eauto.
Qed.

Lemma hi_step ts sc p sc' p' : J ts sc p -> outcome sc sc' -> tok sc' <> EOS ->
  end_tag_start p' = (if token_eqb (tok sc') EndTagOpen then Some (tok_off sc') else end_tag_start p) ->
  hi_of sc p <= hi_of sc' p'.
Proof.
  intros HJ H NE E. pose proof (outcome_states _ _ H NE) as O.
  assert (PG := outcome_progress _ _ _ _ _ _ H). destruct PG as [PO PG].
  assert (pos sc <= pos sc') by (destruct PG as [(? & _)|[(? & ? & ?)|(? & ? & ? & _)]]; [congruence|lia|lia]).
  unfold hi_of. rewrite E. destruct (in_end_tag (st sc')) eqn:I'.
  - destruct (token_eqb (tok sc') EndTagOpen) eqn:T.
    + apply token_eqb_eq in T. rewrite T in O. destruct O as [-> _]. lia.
    + assert (in_end_tag (st sc) = true).
      { destruct (tok sc'); try discriminate; try (destruct O; congruence); auto. }
      rewrite H1. lia.
  - destruct (in_end_tag (st sc)) eqn:I; [|lia].
    destruct (J_end _ _ _ HJ I) as (e & -> & L & _). lia.
Qed.

Lemma run_other ts sc p k : K ts sc p ->
  tk_type k <> EndTagOpen -> tk_type k <> EndTag -> tk_type k <> EndTagClose ->
  exists name, et_run t (ts ++ [k]) = ((end_tag_start p, name), end_tags t ts) /\
     end_tag_name p = option_map (norm U cs) name.
Proof.
  intros [] T1 T2 T3. destruct k_run0 as (name & R1 & R2). exists name. split; auto.
  rewrite et_run_snoc, R1. unfold et_step. destruct (tk_type k); auto; congruence.
Qed.

Lemma find_open_none c ps name : find_open U cs c ps (option_map (norm U cs) name) = None ->
  forall x, In x (zopen c ps) -> same_key x name = false.
Proof.
  revert c; induction ps as [|p ps IH]; intros c H x I; cbn [find_open zopen] in *; [contradiction|].
  destruct (is_same_tag U cs c _) eqn:Q; [discriminate|].
  destruct (find_open U cs p ps (option_map (norm U cs) name)) eqn:F; [discriminate|].
  destruct I as [<-|I]; [rewrite same_key_node; auto|]. eapply IH; eauto.
Qed.

Lemma step_K ts sc p sc' p' : J ts sc p -> K ts sc p -> outcome sc sc' -> tok sc' <> EOS ->
  pstep U t cs void sc' p = Ok p' -> K (ts ++ [token_of sc']) sc' p'.
Proof.
  intros HJ HK H NE HS. pose proof (outcome_states _ _ H NE) as O.
  assert (HI := hi_step _ _ _ _ p' HJ H NE).
  assert (PG := outcome_progress _ _ _ _ _ _ H). destruct PG as [PO PG].
  assert (PL : pos sc <= pos sc') by (destruct PG as [(? & _)|[(? & ? & ?)|(? & ? & ? & _)]]; [congruence|lia|lia]).
  assert (RO := run_other _ _ _ (token_of sc') HK). cbn [tk_type token_of] in RO.
  assert (TAG : in_tag (st sc) = true -> hi_of sc p = pos sc).
  { intros I. unfold hi_of. destruct (st sc); auto; discriminate. }
  assert (SAME : forall q, p' = q -> zdone (cur q) (parents q) = zdone (cur p) (parents p) ->
     (forall x s, In (x, Some s) (popen q) -> In (x, Some s) (popen p) \/ hi_of sc p <= s) ->
     end_tag_start q = end_tag_start p -> end_tag_name q = end_tag_name p ->
     tok sc' <> EndTagOpen -> tok sc' <> EndTag -> tok sc' <> EndTagClose -> K (ts ++ [token_of sc']) sc' p').
  { intros q -> D OO ES EN T1 T2 T3. apply (K_keep ts sc p); auto.
    - apply HI. rewrite ES. destruct (tok sc'); auto; congruence.
    - rewrite ES, EN. auto.
    - intros n. rewrite D. tauto. }
  unfold pstep in HS. destruct (tok sc') eqn:T;
    try (inv HS; apply (SAME p'); auto; discriminate).
  - (* StartTagOpen *)
    inv HS. eapply SAME; auto; try discriminate; cbn [zdone zopen cur parents node_new n_children flat_map].
    + apply app_nil_r.
    + intros x s [Q|Q]; auto. discriminate.
  - (* StartTagClose *)
    destruct O as [I I']. destruct (J_tag _ _ _ HJ I) as (ks & TI). specialize (TAG I).
    destruct (ti_stack _ _ _ _ _ _ _ _ TI) as (par & ps & EP & ST). rewrite EP in HS.
    destruct (0 <? pos sc' - tok_off sc').
    + cbn [upd_cur cur n_tag set_ste set_end] in HS.
      assert (OPEN : p' = mkP (set_ste (Some (pos sc')) (set_end (pos sc') (cur p))) (parents p)
                        (end_tag_start p) (end_tag_name p) (pending p) -> K (ts ++ [token_of sc']) sc' p').
      { intros E. eapply SAME; [exact E|..]; auto; try discriminate; try reflexivity; cbn [cur parents];
          [apply zdone_same; reflexivity|].
        intros x s X. rewrite EP in X |- *. cbn [zopen] in X |- *. destruct X as [X|X].
        - inv X. right. lia.
        - left. right. exact X. }
      destruct (n_tag (cur p)) as [tag|]; [destruct (is_void_element tag void)|]; [|inv HS; auto|inv HS; auto].
      unfold pop in HS. cbn [upd_cur parents cur] in HS. rewrite ?EP in HS. inv HS.
      eapply (K_fin ts sc p _ _ _ (set_closed true (set_ste (Some (pos sc')) (set_end (pos sc') (cur p)))));
        auto; cbn [cur parents end_tag_start end_tag_name n_ets n_ste n_closed n_end set_closed set_ste set_end].
      * apply RO; discriminate.
      * intros n. rewrite EP, zdone_pop. reflexivity.
      * intros x. rewrite EP, zopen_pop. cbn [zopen In]. auto.
      * apply TI.
      * lia.
      * discriminate.
      * intros s Q. inv Q. lia.
    + unfold pop in HS. cbn [upd_cur parents cur] in HS. rewrite ?EP in HS. inv HS.
      eapply (K_fin ts sc p _ _ _ (set_end (pos sc') (cur p)));
        auto; cbn [cur parents end_tag_start end_tag_name n_ets n_ste n_closed n_end set_closed set_ste set_end].
      * apply RO; discriminate.
      * intros n. rewrite EP, zdone_pop. reflexivity.
      * intros x. rewrite EP, zopen_pop. cbn [zopen In]. auto.
      * apply TI.
      * lia.
      * intros _. apply TI.
      * rewrite (ti_ste _ _ _ _ _ _ _ _ TI). discriminate.
  - (* StartTagSelfClose *)
    destruct O as [I I']. destruct (J_tag _ _ _ HJ I) as (ks & TI). specialize (TAG I).
    destruct (ti_stack _ _ _ _ _ _ _ _ TI) as (par & ps & EP & ST). rewrite EP in HS.
    unfold pop in HS. cbn [upd_cur parents cur] in HS. rewrite EP in HS. inv HS.
    eapply (K_fin ts sc p _ _ _ (set_ste (Some (pos sc')) (set_end (pos sc') (set_closed true (cur p)))));
      auto; cbn [cur parents end_tag_start end_tag_name n_ets n_ste n_closed n_end set_closed set_ste set_end].
    * apply RO; discriminate.
    * intros n. rewrite EP, zdone_pop. reflexivity.
    * intros x. rewrite EP, zopen_pop. cbn [zopen In]. auto.
    * apply TI.
    * lia.
    * discriminate.
    * intros s Q. inv Q. lia.
  - (* StartTag *)
    destruct O as [I I']. destruct (J_tag _ _ _ HJ I) as (ks & TI).
    destruct (ti_stack _ _ _ _ _ _ _ _ TI) as (par & ps & EP & ST).
    apply bind_ok in HS as (x & _ & HS). inv HS.
    eapply SAME; auto; try discriminate; cbn [upd_cur cur parents].
    + apply zdone_same. reflexivity.
    + rewrite EP. cbn [zopen]. intros y s [Q|Q]; [|left; right; exact Q].
      unfold key in Q. cbn in Q. rewrite (ti_ste _ _ _ _ _ _ _ _ TI) in Q. discriminate.
  - (* EndTagOpen *)
    inv HS. destruct HK as [R]. apply (K_keep ts sc p); cbn [end_tag_start end_tag_name cur parents].
    + constructor; auto.
    + apply HI. cbn. auto.
    + destruct R as (name & R1 & R2). exists None. rewrite et_run_snoc, R1. cbn. rewrite T. auto.
    + tauto.
    + auto.
  - (* EndTagClose *)
    destruct O as [I I']. destruct (J_end _ _ _ HJ I) as (e & E1 & E2 & E3 & S).
    assert (HE : hi_of sc p = e) by (unfold hi_of; rewrite I, E1; auto).
    destruct HK as [(name & R1 & R2) CA RE LO IM]. rewrite HE in *. clear HE.
    assert (R' : et_run t (ts ++ [token_of sc']) = ((Some e, name), end_tags t ts ++ [(e, name, pos sc')])).
    { rewrite et_run_snoc, R1. unfold et_step. cbn [tk_type token_of tk_end]. rewrite T, E1. auto. }
    assert (EE : end_tags t (ts ++ [token_of sc']) = end_tags t ts ++ [(e, name, pos sc')])
      by (unfold end_tags at 1; rewrite R'; auto).
    assert (HI' : hi_of sc' p' = pos sc') by (unfold hi_of; rewrite I'; auto).
    rewrite R2 in HS.
    destruct (find_open U cs (cur p) (parents p) (option_map (norm U cs) name)) as [k|] eqn:F.
    + rewrite <- R2 in F.
      destruct (close_inner_end ts e name (end_tags t ts) E3 k p S E1 R2 F CA RE) as
        (p1 & C1 & C2 & C3 & C4 & C5 & C6 & C7 & C9 & C8).
      { intros n N C St. left. apply LO; auto. }
      { eapply implied_weaken; [exact IM|]. contradiction. }
      rewrite C1 in HS. cbn [bind] in HS. unfold pop in HS. cbn [upd_cur parents cur] in HS.
      destruct (parents p1) as [|par ps] eqn:EP; [congruence|]. cbn [bind end_tag_start] in HS.
      rewrite C4 in HS. inv HS.
      set (m := set_end (pos sc') (set_ets (Some e) (set_closed true (cur p1)))) in *.
      assert (HD : forall n, In n (zdone (add_child par m) ps) <-> In n (zdone (cur p1) (par :: ps)) \/ n = m).
      { intros n. rewrite zdone_pop. reflexivity. }
      assert (EN : end_tag_start p1 = Some e /\ end_tag_name p1 = end_tag_name p).
      { split; auto. clear - C1. revert p C1. induction k as [|k IH]; intros p C1; cbn [close_inner] in C1; [inv C1; auto|].
        apply bind_ok in C1 as (x & _ & C1). apply bind_ok in C1 as (y & Y & C1). apply IH in C1. rewrite C1.
        unfold pop in Y. cbn [upd_cur parents] in Y. destruct (parents p); inv Y. auto. }
      destruct EN as [EN1 EN2].
      constructor; rewrite ?EE, ?HI'; cbn [cur parents end_tag_start end_tag_name].
      * exists name. rewrite C4, EN2. auto.
      * intros e0 nm q Q. apply in_app_iff in Q as [Q|[Q|[]]].
        -- assert (CA' : cases (end_tags t ts) e (fun n => In n (zdone (add_child par m) ps)) (zopen (add_child par m) ps)).
           { apply (cases_add _ _ _ _ _ _ m C6 HD).
             - intros x. rewrite zopen_pop. cbn [zopen In]. auto.
             - cbn. intros x X. inv X. lia.
             - cbn. lia.
             - intros s _. left. cbn [zopen]. left. reflexivity. }
           destruct (CA' e0 nm q Q) as (Q1 & Q2 & Q3). repeat split; auto. lia.
        -- inv Q. split; [lia|]. split; [lia|]. left. exists m. rewrite HD. repeat split; auto.
           intros n N L En Cl St. apply HD in N as [N| ->]; [|lia].
           destruct (C8 n N Cl St); auto. lia.
      * intros n e0 N Q. apply HD in N as [N| ->].
        -- destruct (C7 n e0 N Q) as (nm & X). exists nm. rewrite in_app_iff. auto.
        -- cbn in Q. inv Q. exists name. rewrite in_app_iff. cbn. auto.
      * intros n N Cl St. apply HD in N as [N| ->]; [|discriminate].
        pose proof (stack_done _ _ _ _ _ C2 n N). lia.
      * intros n N Cl St. apply HD in N as [N| ->]; [|discriminate]. left.
        cbn [parents cur zdone] in C9. destruct (C9 n N Cl St) as [(x & M & Q)|Q].
        -- exists x. rewrite HD. auto.
        -- exists m. rewrite HD, <- Q. auto.
    + inv HS. constructor; rewrite ?EE, ?HI'.
      * exists name. rewrite E1. auto.
      * intros e0 nm q Q. apply in_app_iff in Q as [Q|[Q|[]]].
        -- destruct (CA e0 nm q Q) as (Q1 & Q2 & Q3). repeat split; auto. lia.
        -- inv Q. split; [lia|]. split; [lia|]. right. repeat split.
           ++ intros m M Q. destruct (stack_done _ _ _ _ _ S m M) as [A B]. apply B in Q. lia.
           ++ intros n s N _ _ L. destruct (stack_done _ _ _ _ _ S n N) as [A B]. lia.
           ++ intros x s X _. apply (find_open_none _ _ _ F). auto.
      * intros n e0 N Q. destruct (RE n e0 N Q) as (nm & X). exists nm. rewrite in_app_iff. auto.
      * intros n N Cl St. specialize (LO n N Cl St). lia.
      * exact IM.
  - (* EndTag *)
    apply bind_ok in HS as (x & X & HS). inv HS. destruct HK as [R].
    apply (K_keep ts sc p); cbn [end_tag_start end_tag_name cur parents].
    + constructor; auto.
    + apply HI. cbn. auto.
    + destruct R as (name & R1 & R2). exists (Some x). rewrite et_run_snoc, R1. unfold et_step.
      cbn [tk_type token_of]. rewrite T. split; auto. f_equal. f_equal. f_equal.
      unfold token_text, slice in X. unfold tk_text. cbn. 
      destruct (_ && _); inv X. auto.
    + tauto.
    + auto.
  - (* DelimiterAssign *)
    destruct (pending p); [|inv HS; apply (SAME p'); auto; discriminate].
    apply bind_ok in HS as (x & X & HS). inv HS. unfold set_attr_value in X.
    apply bind_ok in X as (y & _ & X). inv X.
    eapply SAME; auto; try discriminate; cbn [upd_cur cur parents].
    + apply zdone_same. reflexivity.
    + intros z z'. rewrite (zopen_same (cur p)); auto.
  - (* AttributeName *)
    apply bind_ok in HS as (x & X & HS). inv HS.
    eapply SAME; auto; try discriminate; cbn [upd_cur cur parents].
    + apply zdone_same. reflexivity.
    + intros z z'. rewrite (zopen_same (cur p)); auto.
  - (* AttributeValue *)
    apply bind_ok in HS as (x & _ & HS).
    destruct (pending p); [|inv HS; apply (SAME p'); auto; discriminate].
    apply bind_ok in HS as (x' & X & HS). inv HS. unfold set_attr_value in X.
    apply bind_ok in X as (y & _ & X). inv X.
    eapply SAME; auto; try discriminate; cbn [upd_cur cur parents].
    + apply zdone_same. reflexivity.
    + intros z z'. rewrite (zopen_same (cur p)); auto.
Qed.

(** ** The end of the text *)
Fixpoint zets (c : node) (ps : list node) : Prop :=
  match ps with [] => True | p :: ps' => n_ets c = None /\ zets p ps' end.
Lemma zets_pop par c ps : zets par ps -> zets (add_child par c) ps.
Proof. destruct ps; cbn [zets]; auto. Qed.
Lemma stack_zets done ts hi c ps : stack_ok U t cs void done ts hi c ps -> zets c ps.
Proof.
  revert hi c; induction ps as [|p ps IH]; intros hi c; cbn [stack_ok zets]; auto.
  intros [[] S]. eauto.
Qed.
Lemma J_zets ts sc p : J ts sc p -> zets (cur p) (parents p).
Proof.
  intros HJ. destruct (in_end_tag (st sc)) eqn:I.
  - destruct (J_end _ _ _ HJ I) as (e & _ & _ & _ & S). eapply stack_zets; eauto.
  - destruct (in_tag (st sc)) eqn:I'.
    + destruct (J_tag _ _ _ HJ I') as (ks & TI).
      destruct (ti_stack _ _ _ _ _ _ _ _ TI) as (par & ps & EP & ST). rewrite EP. cbn [zets].
      split; [apply TI|eapply stack_zets; eauto].
    + destruct HJ as [L HJ]. destruct (st sc); try discriminate; eapply stack_zets; eauto.
Qed.
Lemma close_all_cases E hi ps : forall c, cases E hi (fun n => In n (zdone c ps)) (zopen c ps) ->
  recorded E (fun n => In n (zdone c ps)) -> implied (eq len) (fun n => In n (zdone c ps)) -> zets c ps -> hi <= len ->
  cases E hi (fun n => In n (flat_map preorder (n_children (close_all t c ps)))) [] /\
  recorded E (fun n => In n (flat_map preorder (n_children (close_all t c ps)))) /\
  implied (eq len) (fun n => In n (flat_map preorder (n_children (close_all t c ps)))).
Proof.
  induction ps as [|par ps IH]; intros c CA RE IM ZE L; cbn [close_all]; [auto|].
  destruct ZE as [Z1 Z2]. set (c' := set_closed false (set_end len c)).
  assert (HD : forall n, In n (zdone (add_child par c') ps) <-> In n (zdone c (par :: ps)) \/ n = c').
  { intros n. rewrite zdone_pop. reflexivity. }
  apply IH; auto.
  - eapply (cases_add E hi _ _ _ _ c'); [exact CA|exact HD| | | |].
    + intros x X. cbn [zopen]. right. rewrite zopen_pop in X. auto.
    + cbn. congruence.
    + cbn. lia.
    + intros s _. left. cbn [zopen]. left. reflexivity.
  - intros m e M Q. apply HD in M as [M| ->]; [eapply RE; eauto|]. cbn in Q. congruence.
  - eapply implied_add; [exact IM|exact HD|]. auto.
  - apply zets_pop. auto.
Qed.

Lemma hi_len ts sc p : J ts sc p -> hi_of sc p <= len.
Proof.
  intros HJ. unfold hi_of. destruct (in_end_tag (st sc)) eqn:I.
  - destruct (J_end _ _ _ HJ I) as (e & -> & L & _). destruct HJ. lia.
  - apply HJ.
Qed.

Lemma loop_end fuel : forall ts sc p p' l f, J ts sc p -> K ts sc p ->
  parse_loop U t cs void fuel sc p = Ok p' -> tokens U t true cs fuel sc = Ok (l, f) ->
  cases (end_tags t (ts ++ l)) len (fun n => In n (flat_map preorder (n_children (close_all t (cur p') (parents p'))))) [] /\
  recorded (end_tags t (ts ++ l)) (fun n => In n (flat_map preorder (n_children (close_all t (cur p') (parents p'))))) /\
  implied (eq len) (fun n => In n (flat_map preorder (n_children (close_all t (cur p') (parents p'))))).
Proof.
  induction fuel as [|fuel IH]; intros ts sc p p' l f HJ HK HP HT; cbn [tokens parse_loop] in *; [discriminate|].
  destruct (scan U t true cs sc) as [sc'|r|] eqn:E; cbn [bind] in *; try discriminate.
  destruct (token_eqb (tok sc') EOS) eqn:T.
  - inv HP. inv HT. rewrite app_nil_r. destruct HK. pose proof (hi_len _ _ _ HJ).
    apply (close_all_cases _ _ (parents p') (cur p')) in k_cases0 as (C1 & C2 & C3); auto.
    + split; auto. eapply cases_weaken; eauto.
    + eapply implied_weaken; [exact k_imp0|]. contradiction.
    + eapply J_zets; eauto.
  - apply token_eqb_neq in T. apply scan_outcome in E; auto.
    destruct (step U t cs void HU _ _ _ _ HJ E T) as (p1 & E1 & HJ'). rewrite E1 in HP. cbn [bind] in HP.
    apply bind_ok in HT as ([l' f'] & HT & Q). inv Q.
    replace (ts ++ token_of sc' :: l') with ((ts ++ [token_of sc']) ++ l') by (rewrite <- app_assoc; auto).
    eapply IH; eauto. eapply step_K; eauto.
Qed.
Lemma K_init : K [] (scanner_new 0 WithinContent) (mkP (node_new 0 len) [] None None None).
Proof.
  constructor; cbn.
  - exists None. auto.
  - intros e name q [].
  - intros m e [].
  - intros n [].
  - intros n [].
Qed.
Theorem parse_end_tags roots l f : parse U t cs void = Ok roots ->
  tokens U t true cs (scan_fuel t) (scanner_new 0 WithinContent) = Ok (l, f) ->
  cases (end_tags t l) len (fun n => In n (flat_map preorder roots)) [] /\
  recorded (end_tags t l) (fun n => In n (flat_map preorder roots)) /\
  implied (eq len) (fun n => In n (flat_map preorder roots)).
Proof.
  unfold parse. intros H T. apply bind_ok in H as (p & H & Q). inv Q.
  exact (loop_end _ [] _ _ _ _ _ (J_init U t cs void) K_init H T).
Qed.
End End.
