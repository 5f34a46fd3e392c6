(** * C22: the pointers of the parser *)
From Verif Require Import Base Stream Scanner BaseFacts Tree Parser ParserPtr PropParse.
From Coq Require Import ZifyBool ZifyNat ZifyN.

(** ** What is in memory *)
(** [holds m c n bl]: the cell [c] is the node [n], its descendants lying in buffers; [bl] are
    these buffers. *)
Inductive holds (m : mem) : cell -> node -> list nat -> Prop :=
| holds_node c n l bl : c_node c = set_children [] n -> buffers m (c_vec c) = Some l ->
    holds_list m l (n_children n) bl -> holds m c n (c_vec c :: bl)
with holds_list (m : mem) : list cell -> list node -> list nat -> Prop :=
| holds_nil : holds_list m [] [] []
| holds_cons c n l ns b1 b2 : holds m c n b1 -> holds_list m l ns b2 -> holds_list m (c :: l) (n :: ns) (b1 ++ b2).
Scheme holds_mut := Induction for holds Sort Prop
with holds_list_mut := Induction for holds_list Sort Prop.
Combined Scheme holds_ind2 from holds_mut, holds_list_mut.

(** The pointers [p :: ptrs] lead from the last child upwards to the document: each points
    to the last child of the node the next one points to. *)
Fixpoint linked (m : mem) (p : ptr) (ptrs : list ptr) : Prop :=
  match ptrs with
  | [] => p = doc_ptr /\ load m p <> None
  | q :: r => (exists c l x, load m q = Some c /\ buffers m (c_vec c) = Some (l ++ [x]) /\ p = (c_vec c, length l)) /\
              linked m q r
  end.

Section Facts.
Implicit Types (m : mem) (p q : ptr) (bl : list nat).
Lemma holds_ext m m' :
  (forall c n bl, holds m c n bl -> (forall b, In b bl -> buffers m' b = buffers m b) -> holds m' c n bl) /\
  (forall l ns bl, holds_list m l ns bl -> (forall b, In b bl -> buffers m' b = buffers m b) -> holds_list m' l ns bl).
Proof.
  apply holds_ind2.
  - intros c n l bl E B H IH A. apply (holds_node m' c n l bl); auto.
    + rewrite A; auto. left. auto.
    + apply IH. intros b I. apply A. right. auto.
  - constructor.
  - intros c n l ns b1 b2 H1 I1 H2 I2 A. constructor; [apply I1|apply I2]; intros b I; apply A; apply in_app_iff; auto.
Qed.
Lemma holds_list_snoc m l ns b1 c n b2 : holds_list m l ns b1 -> holds m c n b2 -> holds_list m (l ++ [c]) (ns ++ [n]) (b1 ++ b2).
Proof.
  induction 1; intros H2; cbn [app].
  - rewrite <- (app_nil_r b2). repeat constructor; auto.
  - rewrite app_assoc_reverse. constructor; auto.
Qed.
Lemma holds_length m l ns bl : holds_list m l ns bl -> length l = length ns.
Proof. induction 1; cbn [length]; auto. Qed.

Inductive ctx (m : mem) : ptr -> list node -> list ptr -> list nat -> Prop :=
| ctx_doc c : buffers m 0 = Some [c] -> ctx m doc_ptr [] [] [0]
| ctx_in q par ps ptrs pc cells x b1 b2 : load m q = Some pc -> c_node pc = set_children [] par ->
    buffers m (c_vec pc) = Some (cells ++ [x]) -> holds_list m cells (n_children par) b1 ->
    ctx m q ps ptrs b2 -> ctx m (c_vec pc, length cells) (par :: ps) (q :: ptrs) (c_vec pc :: b1 ++ b2).

Lemma ctx_block m p ps ptrs bl : ctx m p ps ptrs bl -> In (fst p) bl.
Proof. intros H. inv H; cbn; auto. Qed.
Lemma load_ext m m' p : buffers m' (fst p) = buffers m (fst p) -> load m' p = load m p.
Proof. unfold load. intros ->. auto. Qed.
Lemma ctx_ext m m' p ps ptrs bl : ctx m p ps ptrs bl -> (forall b, In b bl -> buffers m' b = buffers m b) -> ctx m' p ps ptrs bl.
Proof.
  induction 1; intros A.
  - econstructor. rewrite A; eauto. cbn; auto.
  - assert (A2 : forall b, In b b2 -> buffers m' b = buffers m b) by (intros b I; apply A; cbn; rewrite in_app_iff; auto).
    econstructor; eauto.
    + rewrite (load_ext m m'); auto. apply A2. eapply ctx_block; eauto.
    + rewrite A; eauto. cbn; auto.
    + eapply (proj2 (holds_ext m m')); eauto. intros b I. apply A. cbn. rewrite in_app_iff. auto.
Qed.
Lemma ctx_load m p ps ptrs bl : ctx m p ps ptrs bl -> exists l x, buffers m (fst p) = Some (l ++ [x]) /\ snd p = length l.
Proof. intros H. inv H; cbn [fst snd doc_ptr]; [exists [], c; auto|eauto]. Qed.
Lemma set_nth_last l x y : set_nth (length l) y (l ++ [x]) = l ++ [y].
Proof. induction l; cbn [length set_nth app]; [auto|f_equal; auto]. Qed.
Lemma nth_last {A} (l : list A) x : nth_error (l ++ [x]) (length l) = Some x.
Proof. induction l; cbn; auto. Qed.
Lemma set_buffer_same b v f : set_buffer b v f b = v.
Proof. unfold set_buffer. rewrite Nat.eqb_refl. auto. Qed.
Lemma set_buffer_other b v f b' : b' <> b -> set_buffer b v f b' = f b'.
Proof. intros N. unfold set_buffer. destruct (b' =? b) eqn:E; auto. lia. Qed.

(** Writing through the innermost pointer *)
Lemma ctx_write m p ps ptrs bl c : ctx m p ps ptrs bl -> NoDup bl ->
  exists m', write m p c = MOk m' /\ ctx m' p ps ptrs bl /\ load m' p = Some c /\ next m' = next m /\
    forall b, b <> fst p -> buffers m' b = buffers m b.
Proof.
  intros C N. destruct (ctx_load _ _ _ _ _ C) as (l & x & B & S). unfold write. rewrite B, S.
  replace (length l <? length (l ++ [x])) with true by (rewrite app_length; cbn [length]; lia).
  rewrite set_nth_last. eexists. split; [reflexivity|]. cbn [next buffers].
  set (m' := mkMem _ _).
  assert (O : forall b, b <> fst p -> buffers m' b = buffers m b) by (intros b Hb; apply set_buffer_other; auto).
  assert (BP : buffers m' (fst p) = Some (l ++ [c])) by (apply set_buffer_same).
  split.
  - inv C.
    + cbn [fst snd doc_ptr] in *. destruct l; [|discriminate]. econstructor. exact BP.
    + cbn [fst snd] in *. rewrite H1 in B. apply Some_inj in B. apply app_inj_tail in B as [-> ->]. inv N.
      assert (NQ : fst q <> c_vec pc).
      { intros E. apply H6. rewrite <- E. apply in_app_iff. right. eapply ctx_block; eauto. }
      econstructor; eauto.
      * rewrite (load_ext m m'); auto.
      * eapply (proj2 (holds_ext m m')); eauto. intros b I. apply O. intros ->. apply H6. apply in_app_iff. auto.
      * eapply ctx_ext; eauto. intros b I. apply O. intros ->. apply H6. apply in_app_iff. auto.
  - split; auto. unfold load. rewrite BP, S. apply nth_last.
Qed.

(** ** The invariant *)
Definition inv_mem (m : mem) (p : ptr) (ptrs : list ptr) (n : node) (ps : list node) : Prop :=
  exists b1 b2 c, ctx m p ps ptrs b1 /\ load m p = Some c /\ holds m c n b2 /\ NoDup (b1 ++ b2) /\
    forall b, In b (b1 ++ b2) -> b < next m.

Lemma inv_deref m p ptrs n ps : inv_mem m p ptrs n ps -> exists c, deref m p = MOk c /\ c_node c = set_children [] n.
Proof. intros (b1 & b2 & c & C & L & H & _). unfold deref. rewrite L. exists c. split; auto. inv H. auto. Qed.
Lemma nodup_app {A} (a b : list A) : NoDup (a ++ b) -> NoDup a /\ NoDup b /\ forall x, In x a -> In x b -> False.
Proof.
  induction a as [|x a IH]; cbn [app]; intros H; [split; [constructor|split; auto]|].
  inv H. destruct (IH H3) as (N1 & N2 & D). split; [|split]; auto.
  - constructor; auto. intros I. apply H2. apply in_app_iff. auto.
  - intros y [->|I] J; [apply H2; apply in_app_iff; auto|eauto].
Qed.
Lemma inv_assign m p ptrs n ps f n' : inv_mem m p ptrs n ps ->
  f (set_children [] n) = Ok (set_children [] n') -> n_children n' = n_children n ->
  exists m', assign m p f = MOk m' /\ inv_mem m' p ptrs n' ps.
Proof.
  intros (b1 & b2 & c & C & L & H & N & F) E EC. destruct (nodup_app _ _ N) as (N1 & N2 & D).
  assert (CN : c_node c = set_children [] n) by (inv H; auto).
  unfold assign, deref. rewrite L. cbn [mbind]. rewrite CN, E. cbn [lift mbind].
  destruct (ctx_write m p ps ptrs b1 (mkCell (set_children [] n') (c_vec c)) C N1) as (m' & W & C' & L' & NX & O).
  rewrite W. exists m'. split; auto. exists b1, b2, (mkCell (set_children [] n') (c_vec c)). split; auto. split; auto. split.
  - inv H. change (c_vec c) with (c_vec (mkCell (set_children [] n') (c_vec c))) at 2. 
    assert (O2 : forall b, In b (c_vec c :: bl) -> buffers m' b = buffers m b).
    { intros b I. apply O. intros ->. eapply D; [eapply ctx_block; eauto|auto]. }
    econstructor; auto.
    + cbn [c_vec]. rewrite O2; [eauto|cbn; auto].
    + rewrite EC. eapply (proj2 (holds_ext m m')); eauto. intros b I. apply O2. cbn. auto.
  - split; auto. intros b I. rewrite NX. auto.
Qed.
Lemma assign_panic m p ptrs n ps f r : inv_mem m p ptrs n ps -> f (set_children [] n) = Panic r -> assign m p f = MPanic r.
Proof.
  intros I E. destruct (inv_deref _ _ _ _ _ I) as (c & D & CN). unfold assign. rewrite D. cbn [mbind]. rewrite CN, E. auto.
Qed.
Lemma inv_pop m p q ptrs n par ps : inv_mem m p (q :: ptrs) n (par :: ps) -> inv_mem m q ptrs (add_child par n) ps.
Proof.
  intros (b1 & b2 & c & C & L & H & N & F).
  inversion C as [|q' par' ps' ptrs' pc cells x b3 b4 Lq Eq Bq Hq Cq]; subst. unfold load in L. cbn [fst snd] in L.
  rewrite Bq, nth_last in L. apply Some_inj in L. subst x.
  exists b4, (c_vec pc :: b3 ++ b2), pc. split; auto. split; auto. split.
  - econstructor.
    + rewrite Eq. unfold add_child. destruct par. reflexivity.
    + eauto.
    + unfold add_child. cbn [n_children set_children]. apply holds_list_snoc; auto.
  - assert (P : Permutation.Permutation ((c_vec pc :: b3 ++ b4) ++ b2) (b4 ++ c_vec pc :: b3 ++ b2)).
    { cbn [app]. rewrite <- Permutation.Permutation_middle. apply Permutation.perm_skip. rewrite !app_assoc.
      apply Permutation.Permutation_app_tail. apply Permutation.Permutation_app_comm. }
    split; [eapply Permutation.Permutation_NoDup; eauto|].
    intros b I. apply F. eapply Permutation.Permutation_in; [symmetry; eauto|auto].
Qed.
Lemma inv_parents m p ptrs n ps : inv_mem m p ptrs n ps -> (ptrs = [] /\ ps = []) \/ exists q r par ps', ptrs = q :: r /\ ps = par :: ps'.
Proof. intros (b1 & b2 & c & C & _). inv C; [auto|right; do 4 eexists; eauto]. Qed.
Lemma ctx_linked m p ps ptrs bl : ctx m p ps ptrs bl -> linked m p ptrs.
Proof.
  induction 1; cbn [linked].
  - split; auto. unfold load, doc_ptr. cbn [fst snd]. rewrite H. discriminate.
  - split; auto. exists pc, cells, x. auto.
Qed.
End Facts.

Section Sim.
Variable U : unicode.
Variable t : str.
Variable cs : bool.
Variable void : list str.
Variable moves : mem -> ptr -> bool.

Lemma inv_push m p ptrs n ps start : inv_mem m p ptrs n ps ->
  exists k m' p', child_count m p = MOk k /\ push t moves m p start = MOk m' /\ child_ptr m' p k = MOk p' /\
    inv_mem m' p' (p :: ptrs) (node_new start (length t)) (n :: ps).
Proof.
  intros (b1 & b2 & c & C & L & H & N & F). destruct (nodup_app _ _ N) as (N1 & N2 & D).
  inversion H as [c' n' l bl CN CB CL]; subst c' n' b2. inversion N2 as [|x y NI N3]; subst x y.
  assert (FP : In (fst p) b1) by (eapply ctx_block; eauto).
  assert (F1 : forall b, In b b1 -> b < next m) by (intros b I; apply F; apply in_app_iff; auto).
  assert (F2 : forall b, In b (c_vec c :: bl) -> b < next m) by (intros b I; apply F; apply in_app_iff; auto).
  assert (FC : c_vec c < next m) by (apply F2; left; auto).
  assert (NP : fst p <> c_vec c) by (intros E; apply (D (c_vec c)); [rewrite <- E; auto|left; auto]).
  exists (length l). unfold child_count, push, deref. rewrite L. cbn [mbind]. rewrite CB. cbn [next].
  set (child := mkCell (node_new start (length t)) (next m)).
  destruct (moves m p).
  - set (m2 := mkMem _ _).
    assert (B2 : forall b, In b b1 \/ In b bl -> buffers m2 b = buffers m b).
    { intros b I. assert (b < next m) by (destruct I; [auto|apply F2; right; auto]).
      assert (b <> c_vec c) by (intros ->; destruct I; [eapply D; [eauto|left; auto]|auto]).
      unfold m2. cbn [buffers]. rewrite !set_buffer_other by lia. auto. }
    assert (C2 : ctx m2 p ps ptrs b1) by (eapply ctx_ext; eauto).
    destruct (ctx_write m2 p ps ptrs b1 (mkCell (c_node c) (S (next m))) C2 N1) as (m' & W & C' & L' & NX & O).
    exists m', (S (next m), length l). split; auto. split; auto. unfold child_ptr, deref. rewrite L'. cbn [mbind c_vec].
    assert (FS : fst p <> S (next m)) by (specialize (F1 _ FP); lia).
    assert (FE : fst p <> next m) by (specialize (F1 _ FP); lia).
    assert (BS : buffers m' (S (next m)) = Some (l ++ [child])).
    { rewrite O by auto. unfold m2. cbn [buffers]. apply set_buffer_same. }
    assert (BE : buffers m' (next m) = Some []).
    { rewrite O by auto. unfold m2. cbn [buffers]. rewrite set_buffer_other by lia. rewrite set_buffer_other by lia. apply set_buffer_same. }
    rewrite BS. replace (length l <? length (l ++ [child])) with true by (rewrite app_length; cbn [length]; lia).
    split; auto. exists (S (next m) :: bl ++ b1), [next m], child. split; [|split; [|split; [|split]]].
    + change (S (next m)) with (c_vec (mkCell (c_node c) (S (next m)))). econstructor; eauto.
      eapply (proj2 (holds_ext m m')); eauto. intros b I. rewrite O; [apply B2; auto|].
      intros ->. eapply D; [eauto|right; auto].
    + unfold load. cbn [fst snd]. rewrite BS. apply nth_last.
    + change [next m] with (c_vec child :: []). econstructor; [reflexivity|exact BE|constructor].
    + assert (Z : forall b, In b (bl ++ b1) -> b < next m).
      { intros b I. apply in_app_iff in I as [I|I]; auto. apply F2. right. auto. }
      apply (Permutation.Permutation_NoDup (l := next m :: S (next m) :: bl ++ b1)).
      { rewrite (Permutation.Permutation_app_comm _ [next m]). apply Permutation.Permutation_refl. }
      constructor; [intros [E|I]; [lia|apply Z in I; lia]|]. constructor; [intros I; apply Z in I; lia|].
      apply (Permutation.Permutation_NoDup (Permutation.Permutation_app_comm b1 bl)).
      apply nodup_app in N as _. clear - N1 N3 D. induction b1 as [|x r IH]; auto. cbn [app]. inv N1. constructor.
      * intros I. apply in_app_iff in I as [I|I]; auto. apply (D x); [left; auto|right; auto].
      * apply IH; auto. intros y I J. apply (D y); auto. right. auto.
    + intros b I. rewrite NX. unfold m2. cbn [next]. apply in_app_iff in I as [[<-|I]|[<-|[]]]; try lia.
      apply in_app_iff in I as [I|I]; [assert (b < next m) by (apply F2; right; auto); lia|apply F1 in I; lia].
  - set (m' := mkMem _ _). exists m', (c_vec c, length l). split; auto. split; auto.
    assert (B2 : forall b, In b b1 \/ In b bl -> buffers m' b = buffers m b).
    { intros b I. assert (b < next m) by (destruct I; [auto|apply F2; right; auto]).
      assert (b <> c_vec c) by (intros ->; destruct I; [eapply D; [eauto|left; auto]|auto]).
      unfold m'. cbn [buffers]. rewrite !set_buffer_other by lia. auto. }
    assert (L' : load m' p = Some c) by (rewrite (load_ext m m'); auto).
    assert (BS : buffers m' (c_vec c) = Some (l ++ [child])) by (apply set_buffer_same).
    assert (BE : buffers m' (next m) = Some []).
    { unfold m'. cbn [buffers]. rewrite set_buffer_other by lia. apply set_buffer_same. }
    unfold child_ptr, deref. rewrite L'. cbn [mbind]. rewrite BS.
    replace (length l <? length (l ++ [child])) with true by (rewrite app_length; cbn [length]; lia).
    split; auto. exists (c_vec c :: bl ++ b1), [next m], child. split; [|split; [|split; [|split]]].
    + econstructor; eauto; [eapply (proj2 (holds_ext m m')); eauto|eapply ctx_ext; eauto].
    + unfold load. cbn [fst snd]. rewrite BS. apply nth_last.
    + change [next m] with (c_vec child :: []). econstructor; [reflexivity|exact BE|constructor].
    + assert (Z : forall b, In b (c_vec c :: bl ++ b1) -> b < next m).
      { intros b [<-|I]; auto. apply in_app_iff in I as [I|I]; auto. apply F2. right. auto. }
      apply (Permutation.Permutation_NoDup (l := next m :: c_vec c :: bl ++ b1)).
      { rewrite (Permutation.Permutation_app_comm _ [next m]). apply Permutation.Permutation_refl. }
      constructor; [intros I; apply Z in I; lia|].
      apply (Permutation.Permutation_NoDup (l := b1 ++ c_vec c :: bl)); auto.
      rewrite <- Permutation.Permutation_middle. apply Permutation.perm_skip. apply Permutation.Permutation_app_comm.
    + intros b I. unfold m'. cbn [next]. apply in_app_iff in I as [[<-|I]|[<-|[]]]; try lia.
      apply in_app_iff in I as [I|I]; [assert (b < next m) by (apply F2; right; auto); lia|apply F1 in I; lia].
Qed.

Definition rel (q : qstate) (p : pstate) : Prop :=
  inv_mem (q_mem q) (q_cur q) (q_parents q) (cur p) (parents p) /\
  q_ets q = end_tag_start p /\ q_etn q = end_tag_name p /\ q_pending q = pending p.
Definition sim {A B} (R : B -> A -> Prop) (x : res A) (y : mres B) : Prop :=
  match x, y with
  | Ok a, MOk b => R b a
  | Panic r, MPanic r' => r = r'
  | OutOfFuel, MFuel => True
  | _, _ => False
  end.
Lemma sim_bind {A B C D} (R : B -> A -> Prop) (S : D -> C -> Prop) x y f g : sim R x y ->
  (forall a b, R b a -> sim S (f a) (g b)) -> sim S (bind x f) (mbind y g).
Proof. destruct x, y; cbn; intros H K; try contradiction; auto. Qed.
Lemma sim_lift {A} (x : res A) : sim eq x (lift x).
Proof. destruct x; cbn; auto. Qed.

Lemma sim_assign q p f n' : rel q p -> f (set_children [] (cur p)) = Ok (set_children [] n') -> n_children n' = n_children (cur p) ->
  sim rel (Ok (upd_cur (fun _ => n') p)) (assign_cur f q).
Proof.
  intros (I & E1 & E2 & E3) E EC. destruct (inv_assign _ _ _ _ _ f n' I E EC) as (m' & A & I').
  unfold assign_cur. rewrite A. cbn [mbind sim]. split; [exact I'|auto].
Qed.
Lemma sim_set q p g : rel q p -> (forall n, g (set_children [] n) = set_children [] (g n)) -> (forall n, n_children (g n) = n_children n) ->
  sim rel (Ok (upd_cur g p)) (assign_cur (fun n => Ok (g n)) q).
Proof.
  intros R G1 G2. apply (sim_assign q p (fun n => Ok (g n)) (g (cur p))); auto. cbv beta. rewrite G1. auto.
Qed.
Lemma sim_pop q p : rel q p -> sim rel (pop p) (qpop q).
Proof.
  intros (I & E1 & E2 & E3). unfold pop, qpop.
  destruct (inv_parents _ _ _ _ _ I) as [[P1 P2]|(a & r & par & ps & P1 & P2)]; rewrite P1, P2; cbn [sim]; auto.
  rewrite P1, P2 in I. apply inv_pop in I. split; auto.
Qed.
Lemma sim_attr q p v a : rel q p ->
  sim rel (do n <- set_attr_value v a (cur p); Ok (upd_cur (fun _ => n) p)) (assign_cur (set_attr_value v a) q).
Proof.
  intros R. destruct (set_attr_value v a (cur p)) as [n'|r|] eqn:E; cbn [bind].
  - apply sim_assign; auto.
    + revert E. unfold set_attr_value. cbn [set_children n_attrs]. destruct (unwrap _) as [x| |]; cbn [bind]; try discriminate.
      intros E. apply Ok_inj in E. subst n'. reflexivity.
    + revert E. unfold set_attr_value. destruct (unwrap _) as [x| |]; cbn [bind]; try discriminate.
      intros E. apply Ok_inj in E. subst n'. reflexivity.
  - destruct R as (I & _). unfold assign_cur. rewrite (assign_panic _ _ _ _ _ (set_attr_value v a) r I); cbn; auto.
    revert E. unfold set_attr_value. cbn [set_children n_attrs]. destruct (unwrap _) as [x| |]; cbn [bind]; try discriminate; auto.
  - revert E. unfold set_attr_value, unwrap. destruct (attr_get _ _); discriminate.
Qed.
Lemma find_linked m name : forall ps p ptrs bl n c, ctx m p ps ptrs bl -> load m p = Some c -> n_tag (c_node c) = n_tag n ->
  qfind U cs m p ptrs name = MOk (find_open U cs n ps name).
Proof.
  induction ps as [|par ps IH]; intros p ptrs bl n c C L T; inversion C; subst; cbn [qfind find_open]; unfold deref; rewrite L; cbn [mbind]; auto.
  replace (is_same_tag U cs n name) with (is_same_tag U cs (c_node c) name) by (unfold is_same_tag; rewrite T; auto).
  destruct (is_same_tag _ _ _ _); auto.
  erewrite (IH q ptrs0 b2 par pc); eauto. match goal with H : c_node pc = _ |- _ => rewrite H; auto end.
Qed.
Lemma sim_close k : forall q p, rel q p -> sim rel (close_inner k p) (qclose k q).
Proof.
  induction k as [|k IH]; intros q p R; cbn [close_inner qclose]; [exact R|].
  assert (E : q_ets q = end_tag_start p) by apply R. rewrite E.
  eapply sim_bind; [apply sim_lift|]. intros e e' ->.
  change (do p' <- pop (upd_cur (fun n => set_closed false (set_end e n)) p); close_inner k p')
    with (do p1 <- Ok (upd_cur (fun n => set_closed false (set_end e n)) p); do p' <- pop p1; close_inner k p').
  eapply sim_bind; [apply sim_set; auto|]. intros p1 q1 R1.
  eapply sim_bind; [apply sim_pop; eauto|]. auto.
Qed.

Lemma sim_step sc q p : rel q p -> sim rel (pstep U t cs void sc p) (qstep U t cs void moves sc q).
Proof.
  intros R. unfold pstep, qstep.
  assert (PP : (q_parents q = [] /\ parents p = []) \/ exists a r par ps, q_parents q = a :: r /\ parents p = par :: ps)
    by (destruct R as [I _]; eapply inv_parents; eauto).
  destruct (tok sc); try exact R.
  - (* StartTagOpen *) destruct R as (I & E1 & E2 & E3).
    destruct (inv_push _ _ _ _ _ (tok_off sc) I) as (k & m' & p' & C1 & C2 & C3 & I').
    rewrite C1. cbn [mbind]. rewrite C2. cbn [mbind]. rewrite C3. cbn [mbind sim]. split; auto.
  - (* StartTagClose *) destruct PP as [[P1 P2]|(a & r & par & ps & P1 & P2)]; rewrite P1, P2; [exact R|]. cbv zeta.
    set (p1 := upd_cur (set_end (pos sc)) p).
    pose proof (sim_set q p (set_end (pos sc)) R (fun _ => eq_refl) (fun _ => eq_refl)) as S1. fold p1 in S1.
    destruct (assign_cur _ q) as [q1| | |]; cbn [sim] in S1; try contradiction. cbn [mbind].
    destruct (0 <? pos sc - tok_off sc); [|apply sim_pop; auto].
    destruct (inv_deref _ _ _ _ _ (proj1 S1)) as (c & D & CN). rewrite D. cbn [mbind]. rewrite CN.
    set (p2 := upd_cur (set_ste (Some (pos sc))) p1).
    pose proof (sim_set q1 p1 (set_ste (Some (pos sc))) S1 (fun _ => eq_refl) (fun _ => eq_refl)) as S2. fold p2 in S2.
    destruct (assign_cur _ q1) as [q2| | |]; cbn [sim] in S2; try contradiction. cbn [mbind].
    change (n_tag (set_children [] (cur p1))) with (n_tag (cur p2)). destruct (n_tag (cur p2)) as [tag|]; [|exact S2].
    destruct (is_void_element tag void); [|exact S2].
    pose proof (sim_set q2 p2 (set_closed true) S2 (fun _ => eq_refl) (fun _ => eq_refl)) as S3.
    destruct (assign_cur _ q2) as [q3| | |]; cbn [sim] in S3; try contradiction. cbn [mbind]. apply sim_pop. auto.
  - (* StartTagSelfClose *) destruct PP as [[P1 P2]|(a & r & par & ps & P1 & P2)]; rewrite P1, P2; [exact R|].
    match goal with |- sim _ (pop (upd_cur ?g p)) _ =>
      pose proof (sim_set q p g R (fun _ => eq_refl) (fun _ => eq_refl)) as S1 end.
    destruct (assign_cur _ q) as [q1| | |]; cbn [sim] in S1; try contradiction. cbn [mbind]. apply sim_pop; auto.
  - (* StartTag *) eapply sim_bind; [apply sim_lift|]. intros x x' ->. apply sim_set; auto.
  - (* EndTagOpen *) destruct R as (I & E1 & E2 & E3). split; auto.
  - (* EndTagClose *) destruct R as (I & E1 & E2 & E3). assert (I' := I). destruct I' as (b1 & b2 & c & C & L & H & _).
    rewrite (find_linked (q_mem q) (q_etn q) _ _ _ _ (cur p) c C L) by (inv H; match goal with H : c_node c = _ |- _ => rewrite H end; auto).
    cbn [mbind]. rewrite E2. destruct (find_open _ _ _ _ _) as [k|]; [|cbn; split; auto].
    assert (R : rel q p) by (split; auto).
    eapply sim_bind; [apply sim_close; exact R|]. clear - U. intros p1 q1 R.
    assert (E : q_ets q1 = end_tag_start p1) by apply R. rewrite E.
    match goal with |- sim _ (pop (upd_cur ?g p1)) _ =>
      pose proof (sim_set q1 p1 g R (fun _ => eq_refl) (fun _ => eq_refl)) as S1 end.
    destruct (assign_cur _ q1) as [q2| | |]; cbn [sim] in S1; try contradiction. cbn [mbind]. apply sim_pop; auto.
  - (* EndTag *) eapply sim_bind; [apply sim_lift|]. intros x x' ->. destruct R as (I & E1 & E2 & E3). split; auto.
  - (* DelimiterAssign *) assert (E : q_pending q = pending p) by apply R. rewrite E. destruct (pending p); [|exact R].
    apply sim_attr; auto.
  - (* AttributeName *) eapply sim_bind; [apply sim_lift|]. intros x x' ->.
    pose proof (sim_set q p (fun n => set_attrs (attr_insert x (mkAttr None (tok_off sc)) (n_attrs n)) n) R (fun _ => eq_refl) (fun _ => eq_refl)) as S1.
    destruct (assign_cur _ q) as [q1| | |]; cbn [sim] in S1; try contradiction. cbn [mbind sim].
    destruct S1 as (I & E1 & E2 & E3). split; auto.
  - (* AttributeValue *) eapply sim_bind; [apply sim_lift|]. intros x x' ->.
    assert (E : q_pending q = pending p) by apply R. rewrite E. destruct (pending p); [|exact R].
    pose proof (sim_attr q p x s R) as S1.
    destruct (set_attr_value x s (cur p)) as [n'|r|]; cbn [bind] in S1 |- *;
      destruct (assign_cur _ q) as [q1| | |]; cbn [sim mbind] in S1 |- *; try contradiction; auto.
    destruct S1 as (I & E1 & E2 & E3). split; auto.
Qed.
Lemma sim_loop fuel : forall sc q p, rel q p -> sim rel (parse_loop U t cs void fuel sc p) (qloop U t cs void moves fuel sc q).
Proof.
  induction fuel as [|f IH]; intros sc q p R; cbn [parse_loop qloop sim]; auto.
  eapply sim_bind; [apply sim_lift|]. intros s s' ->. destruct (token_eqb _ _); [exact R|].
  eapply sim_bind; [apply sim_step; auto|]. auto.
Qed.
Lemma sim_close_all : forall ps m p ptrs n, inv_mem m p ptrs n ps ->
  exists m', qclose_all t m p ptrs = MOk m' /\ inv_mem m' doc_ptr [] (close_all t n ps) [].
Proof.
  induction ps as [|par ps IH]; intros m p ptrs n I; destruct (inv_parents _ _ _ _ _ I) as [[P1 P2]|(a & r & par' & ps' & P1 & P2)];
    try discriminate; subst; cbn [qclose_all close_all].
  - exists m. split; auto. assert (p = doc_ptr) by (destruct I as (? & ? & ? & C & _); inv C; auto). subst p. auto.
  - inv P2. destruct (inv_assign _ _ _ _ _ (fun n => Ok (set_closed false (set_end (length t) n))) (set_closed false (set_end (length t) n)) I eq_refl eq_refl)
      as (m1 & A & I1). rewrite A. cbn [mbind]. apply inv_pop in I1. apply IH; auto.
Qed.
Lemma rel_0 : rel (q0 t) (mkP (node_new 0 (length t)) [] None None None).
Proof.
  split; [|auto]. exists [0], [1], (mkCell (node_new 0 (length t)) 1). split; [|split; [|split; [|split]]].
  - eapply ctx_doc. reflexivity.
  - reflexivity.
  - change [1] with (c_vec (mkCell (node_new 0 (length t)) 1) :: []). econstructor; [reflexivity|reflexivity|constructor].
  - cbn [app]. repeat constructor; cbn; intuition lia.
  - cbn [app]. intros b [<-|[<-|[]]]; cbn; lia.
Qed.

(** States of the loop of [qparse] after some number of tokens *)
Inductive reached : scanner -> qstate -> Prop :=
| reached_0 : reached (scanner_new 0 WithinContent) (q0 t)
| reached_S sc q sc' q' : reached sc q -> scan U t true cs sc = Ok sc' -> tok sc' <> EOS ->
    qstep U t cs void moves sc' q = MOk q' -> reached sc' q'.
Lemma reached_rel sc q : reached sc q -> exists p, rel q p.
Proof.
  induction 1 as [|sc q sc' q' R (p & IH) S N Q]; [eexists; apply rel_0|].
  pose proof (sim_step sc' q p IH) as X. rewrite Q in X. destruct (pstep _ _ _ _ _ _); cbn in X; try contradiction. eauto.
Qed.
End Sim.

(** ** C22: pointers *)
(** Whatever the policy of reallocation: no access goes through a dangling pointer, and the tree in
    memory at the end is the one [parse] gives. *)
Theorem C22_pointers : forall U t cs void moves,
  match parse U t cs void with
  | Ok roots => exists m l bl, qparse U t cs void moves = MOk (m, l) /\ holds_list m l roots bl /\ NoDup bl
  | Panic r => qparse U t cs void moves = MPanic r
  | OutOfFuel => qparse U t cs void moves = MFuel
  end.
Proof.
  intros U t cs void moves. unfold parse, qparse.
  pose proof (sim_loop U t cs void moves (scan_fuel t) (scanner_new 0 WithinContent) (q0 t) _ (rel_0 t)) as S.
  destruct (parse_loop _ _ _ _ _ _ _) as [p|r|]; destruct (qloop _ _ _ _ _ _ _ _) as [q| | |]; cbn [sim bind mbind] in S |- *; try contradiction; auto.
  - destruct S as (I & _). destruct (sim_close_all t _ _ _ _ _ I) as (m & E & I'). rewrite E. cbn [mbind].
    destruct I' as (b1 & b2 & c & C & L & H & N & _). unfold deref. rewrite L. cbn [mbind]. inv H. rewrite H1.
    exists m, l, bl. split; auto. split; auto. apply nodup_app in N as (_ & N & _). inv N. auto.
  - subst. auto.
Qed.
Print Assumptions C22_pointers.
(** At every moment [cur] points to the last child of the node the last pointer of [parent_list]
    points to, that one to the last child of the next one, and so on up to the document. *)
Theorem C22_linked : forall U t cs void moves sc q, reached U t cs void moves sc q ->
  linked (q_mem q) (q_cur q) (q_parents q).
Proof.
  intros U t cs void moves sc q R. apply reached_rel in R as (p & (b1 & b2 & c & C & _) & _). eapply ctx_linked; eauto.
Qed.
Print Assumptions C22_linked.
Theorem C22_live : forall U t cs void moves sc q p, reached U t cs void moves sc q -> In p (q_cur q :: q_parents q) ->
  load (q_mem q) p <> None.
Proof.
  intros U t cs void moves sc q p R I. apply C22_linked in R. revert R I. generalize (q_cur q), (q_parents q), (q_mem q).
  intros c ps m. revert c. induction ps as [|a r IH]; intros c H I; cbn [linked] in H.
  - destruct H as [-> H]. destruct I as [<-|[]]. auto.
  - destruct H as [(x & l & y & L & B & ->) H]. destruct I as [<-|I]; [|eapply IH; eauto].
    unfold load. cbn [fst snd]. rewrite B, nth_last. discriminate.
Qed.
Print Assumptions C22_live.

(** Example: a parser that always moves the buffer; a pointer to the first child, which the parser does
    not keep, dangles once a second child is pushed. *)
Definition ptr_text : str := bs "<a><b></b><c><d></d></c></a>".
Example C22_case : exists m l, qparse demo_unicode ptr_text false html5_void (fun _ _ => true) = MOk (m, l) /\
  length l = 1 /\ next m = 10.
Proof. do 2 eexists. split; [vm_compute; reflexivity|]. vm_compute. auto. Qed.
Example C22_dangling :
  exists m1 m2 p, push ptr_text (fun _ _ => true) (mem0 ptr_text) doc_ptr 0 = MOk m1 /\
    child_ptr m1 doc_ptr 0 = MOk p /\ load m1 p <> None /\
    push ptr_text (fun _ _ => true) m1 doc_ptr 5 = MOk m2 /\ deref m2 p = MDangling.
Proof.
  do 3 eexists. split; [reflexivity|]. split; [reflexivity|]. split; [discriminate|]. split; reflexivity.
Qed.
