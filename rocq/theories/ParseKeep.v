(** * What becomes of the nodes the parser has opened *)
From Verif Require Import Base BaseFacts Stream Scanner ScannerFacts ScanStep ScanProps ScanShape
  Tree Parser ParseSpec ParseOrder PropParse ScanShift ParseShift.
From Coq Require Import ZifyBool ZifyNat ZifyN.

Section K.
Variable U : unicode.
Variable t : str.
Variable cs : bool.
Variable void : list str.
Hypothesis HU : Utf8 t.
(** From offset [B] on. *)
Variable B : nat.
(** What holds of the node while it is open, and after it was ended. *)
Variables Qz Qc : node -> Prop.
Hypothesis Qz_add : forall m c, Qz m -> Qz (add_child m c).
Hypothesis Qz_cut : forall m e, Qz m -> B <= e <= length t -> Qc (set_closed false (set_end e m)).
Hypothesis Qz_end : forall m e q, Qz m -> B <= e -> B < q -> Qc (set_end q (set_ets (Some e) (set_closed true m))).

(** The node is open, below the current one if [strict], or among the ended ones. *)
Definition below (n : node) (ps : list node) : Prop := exists a b, ps = a ++ n :: b /\ b <> [].
Definition ended (n : node) (l : list node) : Prop := exists m, In m l /\ In n (flat_map preorder (n_children m)).
Definition W (strict : bool) (p : pstate) : Prop :=
  (exists n, Qz n /\ below n (if strict then parents p else cur p :: parents p)) \/
  (exists n, Qc n /\ ended n (cur p :: parents p)).

Lemma W_weak b p : W b p -> W false p.
Proof.
  intros [(n & Q & x & y & E & NE)|H]; [|right; auto]. left. exists n. split; auto. destruct b; cbn in *.
  - exists (cur p :: x), y. rewrite E. auto.
  - exists x, y. auto.
Qed.
Lemma W_upd p f : (forall m, n_children (f m) = n_children m) -> W true p -> W true (upd_cur f p).
Proof.
  intros F [H|(n & Q & m & [<- |M] & C)]; [left; exact H| |]; right; exists n; split; auto.
  - exists (f (cur p)). cbn. rewrite F. auto.
  - exists m. cbn. auto.
Qed.
Lemma ended_add n par c ps : ended n (c :: par :: ps) -> ended n (add_child par c :: ps).
Proof.
  intros (m & [<- |[<- |M]] & C).
  - exists (add_child par c). split; [cbn; auto|]. cbn. rewrite flat_map_app, in_app_iff. right. cbn. rewrite app_nil_r, preorder_eq.
    right. auto.
  - exists (add_child par c). split; [cbn; auto|]. cbn. rewrite flat_map_app, in_app_iff. auto.
  - exists m. split; [cbn; auto|auto].
Qed.
Lemma below_add n par c ps : Qz n -> below n (par :: ps) -> exists n', Qz n' /\ below n' (add_child par c :: ps).
Proof.
  intros Q ([|x a] & b & E & NE); cbn in E; injection E as -> E.
  - exists (add_child n c). split; auto. exists [], b. subst. auto.
  - exists n. split; auto. exists (add_child x c :: a), b. subst. auto.
Qed.
Lemma W_pop_strict p p' : W true p -> pop p = Ok p' -> W false p'.
Proof.
  unfold pop. intros H E. destruct (parents p) as [|par ps] eqn:P; inv E. destruct H as [(n & Q & H)|(n & Q & H)].
  - rewrite P in H. left. cbn. apply below_add with (n := n); auto.
  - right. exists n. split; auto. cbn. rewrite P in H. apply ended_add. auto.
Qed.
Lemma W_end p f p' : (forall m, n_children (f m) = n_children m) -> (forall m, Qz m -> Qc (f m)) ->
  W false p -> pop (upd_cur f p) = Ok p' -> W false p'.
Proof.
  intros F1 F2 H E. destruct H as [(n & Q & [|x a] & b & EE & NE)|(n & Q & m & M)].
  - cbn in EE. injection EE as E1 E2. unfold pop in E. cbn in E. destruct (parents p) as [|par ps]; [congruence|].
    apply Ok_inj in E. subst p'. rewrite E1.
    right. exists (f n). split; auto. cbn. exists (add_child par (f n)). split; [cbn; auto|].
    cbn. rewrite flat_map_app, in_app_iff. right. cbn. rewrite preorder_eq. cbn. auto.
  - cbn in EE. injection EE as E1 E2. eapply W_pop_strict; [|exact E]. left. exists n. split; auto. cbn. exists a, b. auto.
  - eapply W_pop_strict; [|exact E]. right. exists n. split; auto. cbn. destruct M as [[<- |M] C].
    + exists (f (cur p)). rewrite F1. cbn. auto.
    + exists m. cbn. auto.
Qed.
Lemma W_close_inner k : forall p p', W false p -> (forall e, end_tag_start p = Some e -> B <= e <= length t) ->
  close_inner k p = Ok p' -> W false p' /\ end_tag_start p' = end_tag_start p.
Proof.
  induction k as [|k IH]; intros p p' H HB E; cbn [close_inner] in E; [inv E; auto|].
  destruct (end_tag_start p) as [e|] eqn:Ee; cbn [unwrap bind] in E; [|discriminate].
  apply bind_ok in E as (q & E1 & E2).
  assert (EQ : end_tag_start q = Some e).
  { unfold pop in E1. cbn in E1. destruct (parents p); inv E1. cbn. auto. }
  apply IH in E2 as [R1 R2].
  - split; congruence.
  - apply (W_end p (fun n => set_closed false (set_end e n))); auto.
  - intros e' E'. rewrite EQ in E'. inv E'. auto.
Qed.
Lemma W_close_all ps : forall c, W false (mkP c ps None None None) -> B <= length t ->
  exists n, Qc n /\ In n (doc_nodes (n_children (close_all t c ps))).
Proof.
  induction ps as [|par ps IH]; intros c H L; cbn [close_all].
  - destruct H as [(n & _ & a & b & E & NE)|(n & Q & m & [<- |[]] & C)].
    + cbn in E. destruct a as [|x [|y a]]; inv E; try congruence; destruct b; discriminate.
    + exists n. auto.
  - apply IH; auto.
    apply (W_end (mkP c (par :: ps) None None None) (fun n => set_closed false (set_end (length t) n))); auto.
Qed.

Definition ending (q : sstate) : Prop := q = AfterOpeningEndTag \/ q = WithinEndTag.
Definition Inv (y : scanner) (p : pstate) : Prop :=
  W (in_tag (st y)) p /\ (ending (st y) -> exists e, end_tag_start p = Some e /\ B <= e /\ e < pos y).

(** Where the tokens that write to the current node come from. *)
Definition writes (k : token_type) : Prop :=
  k = StartTag \/ k = AttributeName \/ k = DelimiterAssign \/ k = AttributeValue \/ k = StartTagClose \/ k = StartTagSelfClose.
Definition closes (k : token_type) : Prop := k = StartTagClose \/ k = StartTagSelfClose \/ k = EndTagClose.
Lemma scan_writes y y' : scan U t true cs y = Ok y' -> tok y' <> EOS ->
  (writes (tok y') -> in_tag (st y) = true) /\
  (in_tag (st y') = true -> tok y' = StartTagOpen \/ in_tag (st y) = true) /\
  (closes (tok y') -> in_tag (st y') = false /\ ~ ending (st y')) /\
  (tok y' = EndTagOpen -> pos y < pos y').
Proof.
  intros H NE. apply scan_outcome in H; auto.
  pose proof (outcome_progress _ _ _ _ _ _ H) as (_ & PP). unfold writes, closes, ending.
  assert (T : forall sc1, enter_tag t y sc1 -> tag_outcome U t true cs sc1 y' ->
    in_tag (st y) = true /\ (closes (tok y') -> in_tag (st y') = false /\ ~ ending (st y'))).
  { intros sc1 E T. assert (X : in_tag (st y) = true) by (inversion E; subst; match goal with E : st _ = _ |- _ => rewrite E end; auto).
    split; auto. assert (AC : forall x, in_tag (after_close x) = false /\ ~ ending (after_close x)).
    { intros x. unfold after_close, ending. destruct (opt_beq _ _); [destruct (last_type x); split; auto; intros [|]; discriminate|].
      destruct (opt_beq _ _); split; auto; intros [|]; discriminate. }
    inversion T; subst y'; unfold closes; cbn [tok st finish]; intros [C|[C|C]]; try discriminate; try apply AC;
      (split; [reflexivity|intros [Q|Q]; discriminate]). }
  split; [|split; [|split]].
  - intros WR. inversion H; subst y'; cbn [tok st finish] in *; try (intuition discriminate);
      try (match goal with E : st y = _ |- _ => rewrite E; reflexivity end);
      match goal with E : enter_tag _ _ _, F : tag_outcome _ _ _ _ _ _ |- _ => destruct (T _ E F); auto end.
  - intros WR. inversion H; subst y'; cbn [tok st finish] in *; try discriminate; auto;
      try (match goal with E : st y = _ |- _ => rewrite E; auto end);
      try (match goal with E : enter_tag _ _ _, F : tag_outcome _ _ _ _ _ _ |- _ => destruct (T _ E F); auto end).
    match goal with E : _ \/ _ |- _ => destruct E as [E|[E _]]; rewrite E in *; discriminate end.
  - intros WR. inversion H; subst y'; cbn [tok st finish] in *; try (intuition discriminate); auto;
      match goal with E : enter_tag _ _ _, F : tag_outcome _ _ _ _ _ _ |- _ => destruct (T _ E F) as [_ X]; apply X; exact WR end.
  - intros E. rewrite E in PP. intuition (try discriminate; try congruence).
Qed.

Local Ltac nc := let H := fresh in intros H; unfold closes in H; destruct H as [H|[H|H]]; discriminate H.
Local Ltac wr := clear; unfold writes, closes; repeat (first [left; reflexivity | right; reflexivity | right]).
Lemma Inv_step y y' p p' : Inv y p -> B <= pos y -> scan U t true cs y = Ok y' -> tok y' <> EOS ->
  pstep U t cs void y' p = Ok p' -> Inv y' p'.
Proof.
  intros [I1 I2] L H NE HP.
  destruct (scan_writes _ _ H NE) as (K1 & K2 & K3 & K4).
  pose proof (scan_keeps _ _ _ HU _ _ H NE) as (_ & _ & L1 & _ & _ & L2).
  apply scan_outcome in H; auto. pose proof (outcome_progress _ _ _ _ _ _ H) as (P1 & P2).
  assert (P3 : pos y <= pos y') by (destruct P2 as [(P2 & _)|[P2|P2]]; intuition lia).
  assert (P4 : pos y <= length t).
  { destruct P2 as [(P2 & _)|[P2|(_ & _ & _ & P2 & _)]]; [congruence|lia|].
    assert (pos y < length t) by (apply nth_error_Some; congruence). lia. }
  clear P2 H.
  (* the current node is written to, nothing is closed *)
  assert (KEEP : writes (tok y') -> cur p' = cur p' -> (exists f, (forall m, n_children (f m) = n_children m) /\
     cur p' = f (cur p) /\ parents p' = parents p /\ end_tag_start p' = end_tag_start p) -> ~ closes (tok y') -> tok y' <> EndTagOpen -> Inv y' p').
  { intros WR _ (f & F & E1 & E2 & E3) NC NO. rewrite (K1 WR) in I1.
    assert (G : W true p').
    { apply (W_upd p f F) in I1. destruct p', p; cbn in *; subst. destruct I1 as [I1|I1]; [left|right]; exact I1. }
    split.
    - destruct (in_tag (st y')); auto. apply W_weak in G; auto.
    - intros EN. destruct (L2 EN) as [|Q]; [congruence|]. destruct (I2 Q) as (e & A1 & A2 & A3). exists e. rewrite E3. auto with zarith. }
  assert (ID' : ~ (closes (tok y')) -> tok y' <> StartTagOpen -> tok y' <> EndTagOpen -> Inv y' p).
  { intros NC N1 N2. split.
    - destruct (in_tag (st y')) eqn:Q; [|apply W_weak in I1; auto]. destruct (K2 eq_refl) as [|E]; [congruence|]. rewrite E in I1. auto.
    - intros EN. destruct (L2 EN) as [|Q]; [congruence|]. destruct (I2 Q) as (e & A1 & A2 & A3). exists e. auto with zarith. }
  assert (ID : ~ (closes (tok y')) -> tok y' <> StartTagOpen -> tok y' <> EndTagOpen -> p' = p -> Inv y' p') by (intros; subst; auto).
  assert (CL : closes (tok y') -> W false p' -> Inv y' p').
  { intros C G. destruct (K3 C) as [E1 E2]. split; [rewrite E1; auto|]. intros X. contradiction. }
  unfold pstep in HP.
  destruct (tok y') eqn:TY; try (apply ID; [nc|discriminate|discriminate|congruence]).
  - (* StartTagOpen *) apply Ok_inj in HP. subst p'. split.
    + assert (G : W true (mkP (node_new (tok_off y') (length t)) (cur p :: parents p) (end_tag_start p) (end_tag_name p) (pending p))).
      { apply W_weak in I1. destruct I1 as [(n & Q & N)|(n & Q & m & M & C)]; [left|right]; exists n; (split; [auto|]); auto.
        exists m. cbn in *. tauto. }
      destruct (in_tag (st y')); auto. eapply W_weak. eauto.
    + intros EN. destruct (L2 EN) as [|Q]; [congruence|]. destruct (I2 Q) as (e & A1 & A2 & A3). exists e. cbn. auto with zarith.
  - (* StartTagClose *) apply CL; [wr|]. rewrite (K1 ltac:(wr)) in I1.
    destruct (parents p) as [|par ps] eqn:EP; [apply Ok_inj in HP; subst; eapply W_weak; eauto|].
    cbv zeta in HP. destruct (0 <? _).
    + destruct (n_tag (cur _)) as [tag|].
      * destruct (is_void_element tag void).
        -- eapply W_pop_strict; [|exact HP]. repeat apply W_upd; auto.
        -- apply Ok_inj in HP. subst. eapply W_weak. repeat apply W_upd; eauto.
      * apply Ok_inj in HP. subst. eapply W_weak. repeat apply W_upd; eauto.
    + eapply W_pop_strict; [|exact HP]. apply W_upd; auto.
  - (* StartTagSelfClose *) apply CL; [wr|]. rewrite (K1 ltac:(wr)) in I1.
    destruct (parents p) as [|par ps] eqn:EP; [apply Ok_inj in HP; subst; eapply W_weak; eauto|].
    eapply W_pop_strict; [|exact HP]. apply W_upd; auto.
  - (* StartTag *) apply bind_ok in HP as (x & _ & HP). apply Ok_inj in HP. subst p'.
    apply KEEP; [wr|reflexivity| |nc|discriminate]. exists (set_tag (Some x)). auto.
  - (* EndTagOpen *) apply Ok_inj in HP. subst p'. split.
    + assert (G : forall b, W b p -> W b (mkP (cur p) (parents p) (Some (tok_off y')) None (pending p))) by (intros b X; exact X).
      apply G. destruct (in_tag (st y')) eqn:Q; [|apply W_weak in I1; auto]. destruct (K2 eq_refl) as [|E]; [congruence|]. rewrite E in I1. auto.
    + intros _. exists (tok_off y'). cbn. specialize (K4 eq_refl). split; [auto|lia].
  - (* EndTagClose *) apply CL; [wr|]. apply W_weak in I1.
    destruct (find_open U cs (cur p) (parents p) (end_tag_name p)) as [k|]; [|apply Ok_inj in HP; subst; auto].
    apply bind_ok in HP as (q & HC & HP). destruct (I2 (L1 eq_refl)) as (e & A1 & A2 & A3).
    destruct (W_close_inner _ _ _ I1 ltac:(intros e' E'; rewrite A1 in E'; apply Some_inj in E'; subst e'; lia) HC) as [R1 R2].
    eapply W_end; [| |exact R1|exact HP]; auto. rewrite R2, A1. intros m Q. apply Qz_end; auto; lia.
  - (* EndTag *) apply bind_ok in HP as (x & _ & HP). apply Ok_inj in HP.
    assert (G : Inv y' p) by (apply ID'; [nc|discriminate|discriminate]). subst p'. exact G.
  - (* DelimiterAssign *) destruct (pending p) as [a|]; [|apply Ok_inj in HP; apply ID; [nc|discriminate|discriminate|congruence]].
    apply bind_ok in HP as (x & HA & HP). apply Ok_inj in HP. subst p'. unfold set_attr_value in HA. apply bind_ok in HA as (v & _ & HA).
    apply Ok_inj in HA. subst x.
    apply KEEP; [wr|reflexivity| |nc|discriminate]. eexists (set_attrs _). cbn. split; [|split; [reflexivity|auto]]. auto.
  - (* AttributeName *) apply bind_ok in HP as (x & _ & HP). apply Ok_inj in HP. subst p'.
    apply KEEP; [wr|reflexivity| |nc|discriminate].
    exists (fun n => set_attrs (attr_insert x (mkAttr None (tok_off y')) (n_attrs n)) n). auto.
  - (* AttributeValue *) apply bind_ok in HP as (z & _ & HP).
    destruct (pending p) as [a|]; [|apply Ok_inj in HP; apply ID; [nc|discriminate|discriminate|congruence]].
    apply bind_ok in HP as (x & HA & HP). apply Ok_inj in HP. subst p'. unfold set_attr_value in HA. apply bind_ok in HA as (v & _ & HA).
    apply Ok_inj in HA. subst x.
    apply KEEP; [wr|reflexivity| |nc|discriminate]. eexists (set_attrs _). cbn. split; [|split; [reflexivity|auto]]. auto.
Qed.

Lemma Inv_loop fuel : forall y p p', Inv y p -> B <= pos y -> parse_loop U t cs void fuel y p = Ok p' -> W false p'.
Proof.
  induction fuel as [|fuel IH]; intros y p p' HI L H; [discriminate|]. cbn [parse_loop] in H.
  apply bind_ok in H as (y' & E & H). destruct (token_eqb (tok y') EOS) eqn:Q.
  - apply Ok_inj in H. subst p'. destruct HI as [HI _]. eapply W_weak. eauto.
  - apply bind_ok in H as (p1 & E1 & H). apply token_eqb_neq in Q.
    assert (L' : B <= pos y').
    { pose proof (scan_outcome _ _ _ _ HU _ _ E) as O. apply outcome_progress in O as (_ & O).
      destruct O as [(O & _)|[O|O]]; [congruence|lia|]. destruct O as (_ & _ & O & _). lia. }
    eapply IH; [|exact L'|exact H]. eapply Inv_step; eauto.
Qed.

(** A node that is open when the scanner stands between tags at [B] or later is in the tree. *)
Theorem kept fuel y p p' : W false p -> st y = WithinContent -> B <= pos y -> pos y <= length t ->
  parse_loop U t cs void fuel y p = Ok p' ->
  exists n, Qc n /\ In n (doc_nodes (n_children (close_all t (cur p') (parents p')))).
Proof.
  intros H S L1 L2 E. apply W_close_all; [|lia].
  apply (Inv_loop fuel y p p'); auto. split; [rewrite S; auto|]. rewrite S. intros [|]; discriminate.
Qed.
End K.
