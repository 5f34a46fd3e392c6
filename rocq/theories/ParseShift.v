(** * Parsing looks forward only, and what it remembers of earlier tags is not
    looked at again *)
From Verif Require Import Base BaseFacts Stream Scanner ScannerFacts ScanStep ScanProps ScanResume
  ScanShift Tree Parser.
From Coq Require Import ZifyBool ZifyNat ZifyN.

(** A node with every offset moved by [k]. *)
Definition shift_attr (k : nat) (x : str * attribute) : str * attribute :=
  (fst x, mkAttr (a_value (snd x)) (k + a_off (snd x))).
Fixpoint shift (k : nat) (n : node) : node :=
  mkNode (n_tag n) (k + n_start n) (k + n_end n) (map (shift k) (n_children n)) (n_closed n)
         (option_map (Nat.add k) (n_ste n)) (option_map (Nat.add k) (n_ets n))
         (map (shift_attr k) (n_attrs n)).

Lemma attr_get_shift k x m : attr_get x (map (shift_attr k) m) =
  option_map (fun a => mkAttr (a_value a) (k + a_off a)) (attr_get x m).
Proof. induction m as [|[y v] m IH]; cbn; auto. destruct (beq x y); auto. Qed.
Lemma attr_insert_shift k x v o m :
  attr_insert x (mkAttr v (k + o)) (map (shift_attr k) m) = map (shift_attr k) (attr_insert x (mkAttr v o) m).
Proof. induction m as [|[y w] m IH]; cbn; auto. destruct (beq x y); cbn; [auto|]. f_equal. auto. Qed.

Section P.
Variable U : unicode.
Variable cs : bool.
Variable void : list str.
Variables a s : str.
Hypothesis HA : Utf8 a.
Hypothesis HS : Utf8 s.
Variable front : list node.
Notation t := (a ++ s).
Notation k := (length a).
Notation sh := (sh a).

(** The document node: it starts where it did, and has nodes in front. *)
Definition root (n : node) : node :=
  mkNode (n_tag n) 0 (k + n_end n) (front ++ map (shift k) (n_children n)) (n_closed n)
         (option_map (Nat.add k) (n_ste n)) (option_map (Nat.add k) (n_ets n))
         (map (shift_attr k) (n_attrs n)).
Definition place (l : list node) (n : node) : node := match l with [] => root n | _ => shift k n end.
Fixpoint stack (l : list node) : list node :=
  match l with [] => [] | n :: r => place r n :: stack r end.
Definition shp (p : pstate) : pstate :=
  mkP (place (parents p) (cur p)) (stack (parents p)) (option_map (Nat.add k) (end_tag_start p))
      (end_tag_name p) (pending p).

Lemma place_tag l n : n_tag (place l n) = n_tag n.
Proof. destruct l, n; reflexivity. Qed.
Lemma place_attrs l n : n_attrs (place l n) = map (shift_attr k) (n_attrs n).
Proof. destruct l, n; reflexivity. Qed.
Lemma place_set_tag l n v : set_tag v (place l n) = place l (set_tag v n).
Proof. destruct l, n; reflexivity. Qed.
Lemma place_set_attrs l n v : set_attrs (map (shift_attr k) v) (place l n) = place l (set_attrs v n).
Proof. destruct l, n; reflexivity. Qed.
Lemma place_add l n c : add_child (place l n) (shift k c) = place l (add_child n c).
Proof.
  destruct l, n; cbn [place]; unfold add_child, root, set_children; cbn.
  - rewrite map_app, app_assoc. reflexivity.
  - f_equal. rewrite map_app. reflexivity.
Qed.
Lemma shift_end n e : set_end (k + e) (shift k n) = shift k (set_end e n).
Proof. destruct n; reflexivity. Qed.
Lemma shift_ste n e : set_ste (Some (k + e)) (shift k n) = shift k (set_ste (Some e) n).
Proof. destruct n; reflexivity. Qed.
Lemma shift_ets n e : set_ets (option_map (Nat.add k) e) (shift k n) = shift k (set_ets e n).
Proof. destruct n; reflexivity. Qed.
Lemma shift_closed n b : set_closed b (shift k n) = shift k (set_closed b n).
Proof. destruct n; reflexivity. Qed.

Lemma pop_sh p : pop (shp p) = rmap shp (pop p).
Proof.
  unfold pop. destruct p as [c [|par ps] e n q]; cbn [shp parents cur stack]; [reflexivity|].
  unfold rmap. cbn [bind place]. unfold shp. cbn [parents cur]. rewrite place_add. reflexivity.
Qed.
Lemma upd_sh p f g : parents p <> [] -> (forall n, g (shift k n) = shift k (f n)) ->
  upd_cur g (shp p) = shp (upd_cur f p).
Proof.
  intros NE H. unfold upd_cur, shp. cbn [cur parents end_tag_start end_tag_name pending].
  destruct (parents p); [congruence|]. cbn [place]. rewrite H. reflexivity.
Qed.
Lemma same_tag_sh l n name : is_same_tag U cs (place l n) name = is_same_tag U cs n name.
Proof. unfold is_same_tag. rewrite place_tag. reflexivity. Qed.
Lemma find_open_sh ps : forall c name, find_open U cs (place ps c) (stack ps) name = find_open U cs c ps name.
Proof.
  induction ps as [|p ps IH]; intros c name; [reflexivity|]. cbn [stack find_open].
  rewrite same_tag_sh, IH. reflexivity.
Qed.
Lemma find_open_len ps : forall c name m, find_open U cs c ps name = Some m -> m < length ps.
Proof.
  induction ps as [|p ps IH]; intros c name m H; [discriminate|]. cbn [find_open] in H.
  destruct (is_same_tag U cs c name); [inv H; cbn; lia|].
  destruct (find_open U cs p ps name) as [j|] eqn:E; inv H. apply IH in E. cbn. lia.
Qed.
Lemma pop_parents p p' : pop p = Ok p' -> length (parents p) = Datatypes.S (length (parents p')).
Proof. unfold pop. destruct (parents p); intros H; inv H. reflexivity. Qed.
Lemma close_inner_sh m : forall p, m < length (parents p) -> close_inner m (shp p) = rmap shp (close_inner m p).
Proof.
  induction m as [|m IH]; intros p L; [reflexivity|]. cbn [close_inner].
  cbn [shp end_tag_start]. unfold rmap. destruct (end_tag_start p) as [e|] eqn:Ee; cbn [option_map unwrap bind]; [|reflexivity].
  rewrite upd_sh with (f := fun n => set_closed false (set_end e n)).
  2:{ destruct (parents p); [cbn in L; lia|discriminate]. }
  2:{ intros n. rewrite shift_end, shift_closed. reflexivity. }
  rewrite pop_sh. unfold rmap. destruct (pop _) as [p'| |] eqn:P; cbn [bind]; [|reflexivity|reflexivity].
  apply IH. apply pop_parents in P. cbn [upd_cur parents] in P. lia.
Qed.
Lemma close_inner_len m : forall p p', close_inner m p = Ok p' -> length (parents p) = m + length (parents p').
Proof.
  induction m as [|m IH]; intros p p' H; cbn [close_inner] in H; [inv H; lia|].
  apply bind_ok in H as (e & _ & H). apply bind_ok in H as (q & Q & H). apply pop_parents in Q. cbn [upd_cur parents] in Q.
  apply IH in H. lia.
Qed.
Lemma set_value_sh l v x n :
  set_attr_value v x (place l n) = rmap (place l) (set_attr_value v x n).
Proof.
  unfold set_attr_value. rewrite place_attrs, attr_get_shift. unfold rmap.
  destruct (attr_get x (n_attrs n)) as [w|]; cbn [option_map unwrap bind]; [|reflexivity].
  cbn [a_off]. rewrite attr_insert_shift, place_set_attrs. reflexivity.
Qed.

Lemma pstep_sh y p : pstep U t cs void (sh y) (shp p) = rmap shp (pstep U s cs void y p).
Proof.
  unfold pstep. cbn [ScanShift.sh tok]. destruct (tok y); try reflexivity; rewrite ?token_text_sh by auto.
  - (* StartTagOpen *)
    unfold rmap. cbn [bind]. unfold shp. cbn [parents cur stack end_tag_start end_tag_name pending place tok_off ScanShift.sh].
    do 2 f_equal. unfold node_new. cbn [shift]. rewrite app_length. reflexivity.
  - (* StartTagClose *)
    destruct p as [c ps e n q]. destruct ps as [|par ps]; [reflexivity|].
    set (p := mkP c (par :: ps) e n q). assert (NE : parents p <> []) by discriminate.
    change (parents p) with (par :: ps). change (parents (shp p)) with (place ps par :: stack ps). cbn iota.
    cbn [ScanShift.sh pos tok_off].
    rewrite (upd_sh p (set_end (pos y))) by (auto using shift_end).
    replace (k + pos y - (k + tok_off y)) with (pos y - tok_off y) by lia.
    destruct (0 <? pos y - tok_off y); [|apply pop_sh].
    rewrite (upd_sh _ (set_ste (Some (pos y)))) by (auto using shift_ste).
    replace (n_tag (cur (shp (upd_cur (set_ste (Some (pos y))) (upd_cur (set_end (pos y)) p))))) with (n_tag c)
      by (destruct c; reflexivity).
    change (n_tag (cur (upd_cur (set_ste (Some (pos y))) (upd_cur (set_end (pos y)) p)))) with (n_tag c).
    destruct (n_tag c) as [tag|]; [|reflexivity]. destruct (is_void_element tag void); [|reflexivity].
    rewrite (upd_sh _ (set_closed true)) by (auto using shift_closed). apply pop_sh.
  - (* StartTagSelfClose *)
    destruct p as [c ps e n q]. destruct ps as [|par ps]; [reflexivity|].
    set (p := mkP c (par :: ps) e n q). assert (NE : parents p <> []) by discriminate.
    change (parents p) with (par :: ps). change (parents (shp p)) with (place ps par :: stack ps). cbn iota.
    cbn [ScanShift.sh pos].
    rewrite (upd_sh p (fun n => set_ste (Some (pos y)) (set_end (pos y) (set_closed true n)))); auto; [apply pop_sh|].
    intros m. rewrite shift_closed, shift_end, shift_ste. reflexivity.
  - (* StartTag *)
    unfold rmap. destruct (token_text s y) as [x| |]; cbn [bind]; try reflexivity.
    unfold upd_cur, shp. cbn [cur parents end_tag_start end_tag_name pending]. rewrite place_set_tag. reflexivity.
  - (* EndTagClose *)
    cbn [ScanShift.sh pos]. unfold shp at 1 2 3. cbn [cur parents end_tag_name]. rewrite find_open_sh.
    destruct (find_open U cs (cur p) (parents p) (end_tag_name p)) as [m|] eqn:F; [|reflexivity].
    apply find_open_len in F. rewrite close_inner_sh by auto. unfold rmap.
    destruct (close_inner m p) as [p'| |] eqn:C; cbn [bind]; try reflexivity.
    apply close_inner_len in C.
    rewrite (upd_sh p' (fun n => set_end (pos y) (set_ets (end_tag_start p') (set_closed true n)))).
    + apply pop_sh.
    + destruct (parents p'); [cbn in C; lia|discriminate].
    + intros n. cbn [shp end_tag_start]. rewrite shift_closed, shift_ets, shift_end. reflexivity.
  - (* EndTag *)
    unfold rmap. destruct (token_text s y) as [x| |]; cbn [bind]; reflexivity.
  - (* DelimiterAssign *)
    cbn [shp pending]. destruct (pending p) as [x|] eqn:Q; [|unfold rmap; cbn [bind]; reflexivity].
    change (cur (shp p)) with (place (parents p) (cur p)). rewrite set_value_sh. unfold rmap. destruct (set_attr_value [] x (cur p)) as [n| |]; cbn [bind]; reflexivity.
  - (* AttributeName *)
    unfold rmap. destruct (token_text s y) as [x| |]; cbn [bind]; try reflexivity.
    cbn [shp cur ScanShift.sh tok_off]. unfold shp. cbn [cur parents end_tag_start end_tag_name pending].
    rewrite place_attrs, attr_insert_shift, place_set_attrs. reflexivity.
  - (* AttributeValue *)
    unfold rmap. destruct (token_text s y) as [x| |]; cbn [bind]; try reflexivity.
    cbn [shp pending]. destruct (pending p) as [w|] eqn:Q; [|reflexivity].
    change (cur (shp p)) with (place (parents p) (cur p)). rewrite set_value_sh. unfold rmap. destruct (set_attr_value x w (cur p)) as [n| |]; cbn [bind]; reflexivity.
Qed.

Lemma loop_sh fuel : forall y p,
  parse_loop U t cs void fuel (sh y) (shp p) = rmap shp (parse_loop U s cs void fuel y p).
Proof.
  induction fuel as [|fuel IH]; intros y p; [reflexivity|]. cbn [parse_loop]. rewrite scan_sh by auto. unfold rmap at 1.
  destruct (scan U s true cs y) as [y'| |]; cbn [bind]; try reflexivity. cbn [ScanShift.sh tok].
  destruct (token_eqb (tok y') EOS); [reflexivity|]. fold (sh y'). rewrite pstep_sh. unfold rmap at 1.
  destruct (pstep U s cs void y' p) as [p'| |]; cbn [bind]; try reflexivity. apply IH.
Qed.
Lemma close_all_sh ps : forall c, close_all t (place ps c) (stack ps) = root (close_all s c ps).
Proof.
  induction ps as [|p ps IH]; intros c; [reflexivity|]. cbn [stack close_all].
  rewrite <- IH. f_equal. cbn [place]. rewrite app_length, shift_end, shift_closed. apply place_add.
Qed.
End P.

(** What the parser remembers of tags gone by: the start and name of the last end
    tag, and the attribute waiting for a value. *)
Section M.
Variable U : unicode.
Variable t : str.
Variable cs : bool.
Variable void : list str.
Hypothesis HU : Utf8 t.

Definition psim (q : sstate) (p p' : pstate) : Prop :=
  cur p = cur p' /\ parents p = parents p' /\
  (q = AfterAttributeName \/ q = BeforeAttributeValue -> pending p = pending p') /\
  (q = AfterOpeningEndTag \/ q = WithinEndTag ->
   end_tag_start p = end_tag_start p' /\ end_tag_name p = end_tag_name p').
Definition psim_res (q : sstate) (x y : res pstate) : Prop :=
  match x, y with
  | Ok p, Ok p' => psim q p p'
  | Panic r, Panic r' => r = r'
  | OutOfFuel, OutOfFuel => True
  | _, _ => False
  end.

(** Which states lead to the tokens that look at what is remembered, and which
    tokens keep the scanner in such a state. *)
Definition keeps (q : sstate) (k : token_type) (q' : sstate) : Prop :=
  (k = DelimiterAssign -> q = AfterAttributeName) /\
  (k = AttributeValue -> q = BeforeAttributeValue) /\
  (k = EndTagClose -> q = AfterOpeningEndTag \/ q = WithinEndTag) /\
  (k = EndTag -> q = AfterOpeningEndTag) /\
  (q' = AfterAttributeName \/ q' = BeforeAttributeValue ->
     k = AttributeName \/ q = AfterAttributeName \/ q = BeforeAttributeValue) /\
  (q' = AfterOpeningEndTag \/ q' = WithinEndTag ->
     k = EndTagOpen \/ q = AfterOpeningEndTag \/ q = WithinEndTag).

Lemma scan_keeps y y' : scan U t true cs y = Ok y' -> tok y' <> EOS -> keeps (st y) (tok y') (st y').
Proof.
  intros H NE. apply scan_outcome in H; auto.
  assert (T : forall sc1, enter_tag t y sc1 -> tag_outcome U t true cs sc1 y' -> keeps (st y) (tok y') (st y')).
  { intros sc1 E T. assert (W : st sc1 = WithinTag) by (inversion E; subst; auto).
    assert (AC : forall x, after_close x = WithinContent \/ after_close x = WithinScriptContent \/ after_close x = WithinStyleContent).
    { intros x. unfold after_close. destruct (opt_beq _ _); [destruct (last_type x); auto|]. destruct (opt_beq _ _); auto. }
    inversion T; subst y'; cbn [tok st finish]; rewrite ?W; unfold keeps; intuition (try discriminate).
    all: destruct (AC sc1) as [Q|[Q|Q]]; rewrite Q in *; discriminate. }
  inversion H; subst y'; cbn [tok st finish] in *; try (eapply T; eassumption);
    unfold keeps; intuition (try discriminate; try congruence).
Qed.

Lemma pstep_token y y' p : token_of y = token_of y' -> pstep U t cs void y p = pstep U t cs void y' p.
Proof.
  unfold token_of. intros H. injection H as H1 H2 H3 H4 H5. unfold pstep, token_text.
  rewrite H1, H2, H3. reflexivity.
Qed.

Lemma pop_psim q p p' : psim q p p' -> psim_res q (pop p) (pop p').
Proof.
  intros (A & B & C & D). unfold pop. rewrite <- B, <- A. destruct (parents p); cbn; auto.
  repeat split; auto; apply D; auto.
Qed.
Lemma close_inner_psim q m : forall p p', psim q p p' -> end_tag_start p = end_tag_start p' ->
  psim_res q (close_inner m p) (close_inner m p') /\
  (forall r r', close_inner m p = Ok r -> close_inner m p' = Ok r' -> end_tag_start r = end_tag_start r').
Proof.
  induction m as [|m IH]; intros p p' H E; cbn [close_inner].
  - split; [exact H|]. intros r r' R R'. inv R. inv R'. auto.
  - rewrite <- E. destruct (end_tag_start p) as [e|] eqn:Ee; cbn [unwrap bind]; [|split; [reflexivity|discriminate]].
    assert (H1 : psim q (upd_cur (fun n => set_closed false (set_end e n)) p) (upd_cur (fun n => set_closed false (set_end e n)) p')).
    { destruct H as (A & B & C & D). unfold psim, upd_cur. cbn. rewrite A. split; auto. }
    pose proof (pop_psim _ _ _ H1) as H2. unfold pop in *. cbn [upd_cur parents] in *.
    destruct H as (A & B & C & D). rewrite <- B in *. destruct (parents p); cbn [bind psim_res] in *; [split; [auto|discriminate]|].
    apply IH; auto. cbn. congruence.
Qed.

Lemma pstep_psim y y' p p' : keeps (st y) (tok y') (st y') -> psim (st y) p p' ->
  psim_res (st y') (pstep U t cs void y' p) (pstep U t cs void y' p').
Proof.
  intros (K1 & K2 & K3 & K4 & K5 & K6) (A & B & C & D). unfold pstep.
  assert (P : tok y' <> AttributeName -> st y' = AfterAttributeName \/ st y' = BeforeAttributeValue -> pending p = pending p').
  { intros N H. apply C. destruct (K5 H) as [|]; tauto. }
  assert (Q : tok y' <> EndTagOpen -> st y' = AfterOpeningEndTag \/ st y' = WithinEndTag ->
    end_tag_start p = end_tag_start p' /\ end_tag_name p = end_tag_name p').
  { intros N H. apply D. destruct (K6 H) as [|]; tauto. }
  assert (R : tok y' <> AttributeName -> tok y' <> EndTagOpen -> psim (st y') p p').
  { intros N1 N2. unfold psim. auto. }
  assert (UP : forall q r r' f, psim q r r' -> psim q (upd_cur f r) (upd_cur f r')).
  { intros q r r' f (H1 & H2 & H3 & H4). unfold psim, upd_cur. cbn. rewrite H1. auto. }
  destruct (tok y') eqn:T; try (apply R; discriminate).
  - (* StartTagOpen *)
    cbn. specialize (P ltac:(discriminate)). specialize (Q ltac:(discriminate)). unfold psim. cbn. rewrite A, B. auto.
  - (* StartTagClose *)
    specialize (R ltac:(discriminate) ltac:(discriminate)). rewrite <- B. destruct (parents p) eqn:E; [exact R|].
    destruct (0 <? pos y' - tok_off y'); [|apply pop_psim; auto].
    replace (n_tag (cur (upd_cur (set_ste (Some (pos y'))) (upd_cur (set_end (pos y')) p'))))
      with (n_tag (cur (upd_cur (set_ste (Some (pos y'))) (upd_cur (set_end (pos y')) p)))) by (cbn; rewrite A; reflexivity).
    destruct (n_tag _) as [tag|]; [|apply UP, UP; auto].
    destruct (is_void_element tag void); [apply pop_psim|]; repeat apply UP; auto.
  - (* StartTagSelfClose *)
    specialize (R ltac:(discriminate) ltac:(discriminate)). rewrite <- B. destruct (parents p) eqn:E; [exact R|].
    apply pop_psim. auto.
  - (* StartTag *)
    destruct (token_text t y'); cbn [bind psim_res]; auto. apply UP, R; discriminate.
  - (* EndTagOpen *)
    cbn. unfold psim. cbn. rewrite A, B. repeat split; auto. apply P. discriminate.
  - (* EndTagClose *)
    destruct (D (K3 eq_refl)) as [E1 E2]. rewrite <- A, <- B, <- E2.
    specialize (R ltac:(discriminate) ltac:(discriminate)).
    destruct (find_open U cs (cur p) (parents p) (end_tag_name p)) as [m|]; [|exact R].
    destruct (close_inner_psim (st y') m p p' R E1) as [H1 H2].
    destruct (close_inner m p) as [r| |], (close_inner m p') as [r'| |]; cbn [bind psim_res] in *; auto; try tauto.
    specialize (H2 _ _ eq_refl eq_refl). apply pop_psim. rewrite H2.
    destruct H1 as (G1 & G2 & G3 & G4). unfold psim, upd_cur. cbn. rewrite G1. auto.
  - (* EndTag *)
    destruct (token_text t y'); cbn [bind psim_res]; auto.
    specialize (P ltac:(discriminate)). specialize (Q ltac:(discriminate)). unfold psim. cbn. repeat split; auto. apply Q; auto.
  - (* DelimiterAssign *)
    rewrite <- (C (or_introl (K1 eq_refl))). specialize (R ltac:(discriminate) ltac:(discriminate)).
    destruct (pending p); [|exact R]. rewrite <- A. destruct (set_attr_value _ _ _); cbn [bind psim_res]; auto.
  - (* AttributeName *)
    destruct (token_text t y'); cbn [bind psim_res]; auto. rewrite <- A, <- B.
    unfold psim. cbn. repeat split; auto; apply Q; auto; discriminate.
  - (* AttributeValue *)
    destruct (token_text t y'); cbn [bind psim_res]; auto.
    rewrite <- (C (or_intror (K2 eq_refl))). specialize (R ltac:(discriminate) ltac:(discriminate)).
    destruct (pending p) eqn:E; [|exact R]. rewrite <- A. destruct (set_attr_value _ _ _); cbn [bind psim_res]; auto.
    rewrite <- B. unfold psim. cbn. repeat split; auto; apply Q; auto; discriminate.
Qed.

Lemma loop_sim fuel : forall y z p p', sim t y z -> psim (st y) p p' ->
  exists q, psim_res q (parse_loop U t cs void fuel y p) (parse_loop U t cs void fuel z p').
Proof.
  induction fuel as [|fuel IH]; intros y z p p' S P; [exists WithinContent; exact I|]. cbn [parse_loop].
  pose proof (sim_scan U t true cs HU _ _ S) as R.
  destruct (scan U t true cs y) as [y'| |] eqn:E1, (scan U t true cs z) as [z'| |] eqn:E2; cbn [bind] in *; unfold sim_res in R;
    try tauto; try (exists WithinContent; exact R).
  destruct R as [R1 R2]. assert (T : tok y' = tok z') by (injection R2; auto). rewrite <- T.
  destruct (token_eqb (tok y') EOS) eqn:TE; [exists (st y); exact P|]. apply token_eqb_neq in TE.
  rewrite <- (pstep_token y' z') by auto.
  pose proof (pstep_psim y y' p p' (scan_keeps _ _ E1 TE) P) as Q.
  destruct (pstep U t cs void y' p) as [r| |], (pstep U t cs void y' p') as [r'| |]; cbn [bind psim_res] in *; try tauto;
    try (exists WithinContent; exact Q).
  eapply IH; eauto.
Qed.
End M.
