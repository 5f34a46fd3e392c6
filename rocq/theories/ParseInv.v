(** * The parser's invariant: at every point of the parse the tree built so far
    agrees with the text read so far ([ParseSpec]). *)
From Verif Require Import Base Stream Scanner BaseFacts ScannerFacts ScanStep ScanProps ScanPanic ScanShape
  ScanResume Tree Parser ParseSpec.
From Coq Require Import ZifyBool ZifyNat ZifyN.

(** ** Token lists of start tags *)
Definition is_type (ty : token_type) (k : token) : Prop := tk_type k = ty.

Lemma value_after_app t r k :
  (tk_type k = DelimiterAssign -> ~ Forall (is_type Whitespace) r) ->
  (tk_type k = AttributeValue -> forall w ka, r = w ++ [ka] -> Forall (is_type Whitespace) w ->
     tk_type ka <> DelimiterAssign) ->
  value_after t (r ++ [k]) = value_after t r.
Proof.
  induction r as [|x r IH]; intros H1 H2; cbn [value_after app].
  - destruct (tk_type k) eqn:E; auto. exfalso. apply H1; auto.
  - destruct (tk_type x) eqn:E; auto.
    + destruct r as [|y r]; cbn [app]; auto.
      destruct (token_eqb (tk_type k) AttributeValue) eqn:F; auto.
      exfalso. apply token_eqb_eq in F. eapply (H2 F [] x); auto.
    + apply IH.
      * intros F Q. apply (H1 F). constructor; auto.
      * intros F w ka -> Q. apply (H2 F (x :: w) ka); auto.
Qed.

Lemma value_after_ws t w : Forall (is_type Whitespace) w -> value_after t w = None.
Proof. induction 1; cbn [value_after]; auto. rewrite H. auto. Qed.
Lemma value_after_assign t w ka : Forall (is_type Whitespace) w -> tk_type ka = DelimiterAssign ->
  value_after t (w ++ [ka]) = Some [].
Proof. induction 1; intros E; cbn [value_after app]; [rewrite E; auto|]. rewrite H. auto. Qed.
Lemma value_after_value t w ka kv : Forall (is_type Whitespace) w -> tk_type ka = DelimiterAssign ->
  tk_type kv = AttributeValue -> value_after t (w ++ [ka; kv]) = Some (tk_text t kv).
Proof.
  induction 1; intros E F; cbn [value_after app].
  - rewrite E, F. auto.
  - rewrite H. auto.
Qed.

(** Appending a token other than '=' and a value. *)
Lemma attr_in_app t x ks k :
  tk_type k <> DelimiterAssign -> tk_type k <> AttributeValue ->
  attr_in t x (ks ++ [k]) =
  if token_eqb (tk_type k) AttributeName && beq (tk_text t k) x
  then Some (mkAttr None (tk_off k)) else attr_in t x ks.
Proof.
  intros H1 H2. induction ks as [|y ks IH]; cbn [attr_in app value_after].
  - auto.
  - rewrite IH. destruct (token_eqb (tk_type k) AttributeName && beq (tk_text t k) x) eqn:E; auto.
    rewrite value_after_app by (intros F; congruence). auto.
Qed.

(** Appending '=' after a name. *)
Lemma attr_in_assign t x ks kn w ka :
  tk_type kn = AttributeName -> Forall (is_type Whitespace) w -> tk_type ka = DelimiterAssign ->
  attr_in t x ((ks ++ kn :: w) ++ [ka]) =
  if beq (tk_text t kn) x then Some (mkAttr (Some []) (tk_off kn)) else attr_in t x (ks ++ kn :: w).
Proof.
  intros H1 H2 H3.
  assert (W : attr_in t x w = None /\ attr_in t x (w ++ [ka]) = None).
  { clear - H2 H3. induction H2; cbn [attr_in app]; [rewrite H3; auto|].
    destruct IHForall as [-> ->]. rewrite H. auto. }
  destruct W as [W1 W2].
  induction ks as [|y ks IH]; cbn [attr_in app].
  - rewrite W1, W2, H1. cbn. destruct (beq (tk_text t kn) x); auto.
    rewrite value_after_assign by auto. auto.
  - rewrite IH. destruct (beq (tk_text t kn) x) eqn:B; auto.
    rewrite value_after_app; auto.
    + intros _ F. apply Forall_app in F as [_ F]. inv F. unfold is_type in *. congruence.
    + congruence.
Qed.

Lemma attr_in_name t ks kn w r :
  tk_type kn = AttributeName -> Forall (is_type Whitespace) w ->
  (r = [] \/ exists ka, r = [ka] /\ tk_type ka = DelimiterAssign) ->
  attr_in t (tk_text t kn) (ks ++ kn :: w ++ r) = Some (mkAttr (value_after t (w ++ r)) (tk_off kn)).
Proof.
  intros H1 H2 H3.
  assert (W : attr_in t (tk_text t kn) (w ++ r) = None).
  { clear H1. induction H2; cbn [attr_in app].
    - destruct H3 as [->|(ka & -> & E)]; auto. cbn. rewrite E. auto.
    - rewrite IHForall, H. auto. }
  induction ks as [|y ks IH]; cbn [attr_in app].
  - rewrite W, H1, beq_refl. auto.
  - rewrite IH. auto.
Qed.

(** Appending a value after name and '='. *)
Lemma attr_in_value t x ks kn w ka kv :
  tk_type kn = AttributeName -> Forall (is_type Whitespace) w -> tk_type ka = DelimiterAssign ->
  tk_type kv = AttributeValue ->
  attr_in t x ((ks ++ kn :: w ++ [ka]) ++ [kv]) =
  if beq (tk_text t kn) x then Some (mkAttr (Some (tk_text t kv)) (tk_off kn))
  else attr_in t x (ks ++ kn :: w ++ [ka]).
Proof.
  intros H1 H2 H3 H4.
  assert (W : attr_in t x (w ++ [ka]) = None /\ attr_in t x (w ++ [ka; kv]) = None).
  { clear - H2 H3 H4. induction H2; cbn [attr_in app]; [rewrite H3, H4; auto|].
    destruct IHForall as [-> ->]. rewrite H. auto. }
  destruct W as [W1 W2].
  assert (EQ : forall l, (l ++ kn :: w ++ [ka]) ++ [kv] = l ++ kn :: w ++ [ka; kv]).
  { intros l. rewrite <- app_assoc. cbn [app]. rewrite <- app_assoc. auto. }
  rewrite EQ. induction ks as [|y ks IH]; cbn [attr_in app].
  - rewrite W1, W2, H1. cbn. destruct (beq (tk_text t kn) x); auto.
    rewrite value_after_value by auto. auto.
  - rewrite IH. destruct (beq (tk_text t kn) x) eqn:B; auto.
    rewrite <- EQ, value_after_app; auto; [congruence|].
    intros _ w' ka' E Q. assert (kn = hd kn (skipn (length ks) (w' ++ [ka']))).
    { rewrite <- E, skipn_app, skipn_all, Nat.sub_diag. auto. }
    assert (In kn w').
    { assert (L : length (ks ++ kn :: w ++ [ka]) = length (w' ++ [ka'])) by (rewrite E; auto).
      rewrite !app_length in L. cbn [length] in L. rewrite app_length in L. cbn [length] in L.
      assert (N : nth_error (w' ++ [ka']) (length ks) = Some kn).
      { rewrite <- E, nth_error_app2, Nat.sub_diag by lia. auto. }
      rewrite nth_error_app1 in N by lia. eapply nth_error_In; eauto. }
    rewrite Forall_forall in Q. apply Q in H0. unfold is_type in H0. congruence.
Qed.

Lemma tag_in_app t ks k :
  tag_in t (ks ++ [k]) = if token_eqb (tk_type k) StartTag then Some (tk_text t k) else tag_in t ks.
Proof.
  induction ks as [|y ks IH]; cbn [tag_in app]; auto. rewrite IH.
  destruct (token_eqb (tk_type k) StartTag); auto.
Qed.

(** ** Association lists *)
Lemma attr_get_insert x k a m : attr_get x (attr_insert k a m) = if beq k x then Some a else attr_get x m.
Proof.
  induction m as [|[k' a'] m IH]; cbn [attr_insert attr_get].
  - destruct (beq x k) eqn:E, (beq k x) eqn:F; auto.
    + apply beq_eq in E. subst. rewrite beq_refl in F. discriminate.
    + apply beq_eq in F. subst. rewrite beq_refl in E. discriminate.
  - destruct (beq k k') eqn:E; cbn [attr_get].
    + apply beq_eq in E. subst k'. destruct (beq x k) eqn:F, (beq k x) eqn:G; auto.
      * apply beq_eq in F. subst. rewrite beq_refl in G. discriminate.
      * apply beq_eq in G. subst. rewrite beq_refl in F. discriminate.
    + rewrite IH. destruct (beq x k') eqn:F; auto. destruct (beq k x) eqn:G; auto.
      apply beq_eq in F, G. subst. rewrite beq_refl in E. discriminate.
Qed.
Lemma attr_insert_keys k a m x : In x (map fst (attr_insert k a m)) -> x = k \/ In x (map fst m).
Proof.
  induction m as [|[k' a'] m IH]; cbn [attr_insert map fst In]; [intros [|[]]; auto|].
  destruct (beq k k') eqn:E; cbn [map fst In].
  - apply beq_eq in E. subst. tauto.
  - tauto.
Qed.
Lemma attr_insert_nodup k a m : NoDup (map fst m) -> NoDup (map fst (attr_insert k a m)).
Proof.
  induction m as [|[k' a'] m IH]; cbn [attr_insert map fst]; intros H.
  - constructor; auto.
  - inv H. destruct (beq k k') eqn:E; cbn [map fst].
    + apply beq_eq in E. subst. constructor; auto.
    + constructor; auto. intros Q. apply attr_insert_keys in Q as [->|Q]; auto.
      rewrite beq_refl in E. discriminate.
Qed.

(** ** Chains *)
Lemma chain_le lo l hi : chain lo l hi -> lo <= hi.
Proof.
  revert lo; induction l as [|c l IH]; cbn [chain]; intros lo; [auto|].
  intros (H1 & H2 & H3). apply IH in H3. lia.
Qed.
Lemma chain_weaken lo l hi hi' : chain lo l hi -> hi <= hi' -> chain lo l hi'.
Proof.
  revert lo; induction l as [|c l IH]; cbn [chain]; intros lo; [lia|].
  intros (H1 & H2 & H3) H. eauto.
Qed.
Lemma chain_snoc lo l hi c hi' :
  chain lo l hi -> hi <= n_start c -> n_start c < n_end c -> n_end c <= hi' -> chain lo (l ++ [c]) hi'.
Proof.
  revert lo; induction l as [|x l IH]; cbn [chain app]; intros lo; [lia|].
  intros (H1 & H2 & H3) H. eauto.
Qed.

(** ** Trees *)
Section NodeInd.
Variable P : node -> Prop.
Hypothesis H : forall n, Forall P (n_children n) -> P n.
Fixpoint node_induction (n : node) : P n :=
  H n (match n with mkNode a b c ch d e f g =>
        (fix go (l : list node) : Forall P l :=
           match l with [] => Forall_nil _ | x :: r => Forall_cons x (node_induction x) (go r) end) ch
       end).
End NodeInd.

Lemma all_nodes_impl (P Q : node -> Prop) n :
  (forall m, P m -> Q m) -> all_nodes P n -> all_nodes Q n.
Proof.
  intros HPQ. revert n. apply (node_induction (fun n => all_nodes P n -> all_nodes Q n)).
  intros n IH A. inv A. constructor; auto. rewrite Forall_forall in *. auto.
Qed.

(** ** Texts *)
Lemma ws_run_nil t p : p <= length t -> ws_run t p p.
Proof. intros H. repeat split; auto; lia. Qed.
Lemma ws_run_ext t a p e : ws_run t a p -> skip_ws t p = Some e -> ws_run t a e.
Proof.
  intros (H1 & H2 & H3) H. apply skip_ws_some in H as (K1 & K2 & K3 & K4). repeat split; try lia.
  intros i I1 I2. destruct (Nat.lt_ge_cases i p); auto.
Qed.

Section Inv.
Variable U : unicode.
Variable t : str.
Variable cs : bool.
Variable void : list str.
Hypothesis HU : Utf8 t.
Notation len := (length t).
Notation node_ok := (node_ok U t cs void).
Notation outcome := (outcome U t true cs).

Lemma no_name_none p : m_element_name U (skipn p t) = None -> forall e, ~ elem_name U t p e.
Proof. intros H e (_ & _ & _ & Q). congruence. Qed.
Lemma no_name_gt p : nth_error t p = Some GT -> m_element_name U (skipn p t) = None.
Proof. intros H. rewrite (skipn_cons _ _ _ H). reflexivity. Qed.
Lemma no_name_end p : len <= p -> m_element_name U (skipn p t) = None.
Proof. intros H. apply skipn_all_iff in H. rewrite H. reflexivity. Qed.

(** ** Growing token lists *)
Lemma start_of_mono ts k n : start_of t true ts n -> start_of t true (ts ++ [k]) n.
Proof.
  intros (pre & op & ks & post & -> & H1 & H2 & H3 & H4 & H5 & H6 & H7 & H8).
  specialize (H4 eq_refl). destruct post as [|k0 post]; [congruence|].
  exists pre, op, ks, ((k0 :: post) ++ [k]). repeat split; auto.
  - rewrite <- !app_assoc. cbn. rewrite <- !app_assoc. auto.
  - discriminate.
  - intros k1 r E. inv E. eapply H5; eauto.
Qed.
Lemma start_of_false done ts n : start_of t done ts n -> start_of t false ts n.
Proof.
  intros (pre & op & ks & post & -> & H1 & H2 & H3 & H4 & H5 & H6 & H7 & H8).
  exists pre, op, ks, post. repeat split; auto. discriminate.
Qed.
Lemma ended_mono ts k n ty : ended ts n ty -> ended (ts ++ [k]) n ty.
Proof. intros (x & H & H'). exists x. rewrite in_app_iff. auto. Qed.
Lemma cut_mono ts k n : cut ts n -> cut (ts ++ [k]) n.
Proof.
  intros (pre & op & ks & x & r & -> & H). exists pre, op, ks, x, (r ++ [k]). split; auto.
  rewrite <- !app_assoc. cbn [app]. rewrite <- !app_assoc. reflexivity.
Qed.
Lemma closing_mono ts k n : closing U t cs void ts n -> closing U t cs void (ts ++ [k]) n.
Proof.
  intros H; inv H; [eapply C_end|eapply C_self|eapply C_void|eapply C_open|eapply C_cut]; eauto using ended_mono.
  match goal with H : _ \/ cut _ _ |- _ => destruct H; auto using cut_mono end.
Qed.
Lemma node_ok_mono ts k n : node_ok true ts n -> node_ok true (ts ++ [k]) n.
Proof. intros []. constructor; auto using start_of_mono, closing_mono. Qed.
Lemma node_ok_false done ts n : node_ok done ts n -> node_ok false ts n.
Proof. intros []. constructor; eauto using start_of_false. Qed.
Lemma nodes_mono ts k l :
  Forall (all_nodes (node_ok true ts)) l -> Forall (all_nodes (node_ok true (ts ++ [k]))) l.
Proof. apply Forall_impl. intros n. apply all_nodes_impl. intros m. apply node_ok_mono. Qed.
Lemma nodes_false done ts l :
  Forall (all_nodes (node_ok done ts)) l -> Forall (all_nodes (node_ok false ts)) l.
Proof. apply Forall_impl. intros n. apply all_nodes_impl. intros m. apply node_ok_false. Qed.

(** ** The stack of open elements *)
Record open_ok (done : bool) (ts : list token) (n : node) (hi : nat) : Prop := {
  op_start : start_of t done ts n;
  op_lt : nth_error t (n_start n) = Some LT;
  op_tag : tag_text U t (n_start n) (n_tag n);
  op_keys : NoDup (map fst (n_attrs n));
  op_closed : n_closed n = false;
  op_ets : n_ets n = None;
  op_void : is_void void (n_tag n) = false;
  op_ended : ended ts n StartTagClose;
  op_ste : exists s, n_ste n = Some s /\ n_start n < s /\ chain s (n_children n) hi;
  op_hi : hi <= len;
  op_children : Forall (all_nodes (node_ok done ts)) (n_children n)
}.
Record root_ok (done : bool) (ts : list token) (n : node) (hi : nat) : Prop := {
  ro_chain : chain 0 (n_children n) hi;
  ro_hi : hi <= len;
  ro_children : Forall (all_nodes (node_ok done ts)) (n_children n)
}.
Fixpoint stack_ok (done : bool) (ts : list token) (hi : nat) (c : node) (ps : list node) : Prop :=
  match ps with
  | [] => root_ok done ts c hi
  | p :: ps' => open_ok done ts c hi /\ stack_ok done ts (n_start c) p ps'
  end.

Lemma stack_weaken done ts hi hi' c ps :
  stack_ok done ts hi c ps -> hi <= hi' -> hi' <= len -> stack_ok done ts hi' c ps.
Proof.
  destruct ps as [|p ps]; cbn [stack_ok].
  - intros [] H H'. constructor; eauto using chain_weaken.
  - intros [[] S] H H'. split; auto. constructor; auto.
    destruct op_ste0 as (s & E1 & E2 & E3). eauto using chain_weaken.
Qed.
Lemma stack_hi done ts hi c ps : stack_ok done ts hi c ps -> hi <= len.
Proof. destruct ps; cbn [stack_ok]; [intros []|intros [[] _]]; auto. Qed.
Lemma stack_mono ts k hi c ps : stack_ok true ts hi c ps -> stack_ok true (ts ++ [k]) hi c ps.
Proof.
  revert hi c; induction ps as [|p ps IH]; intros hi c; cbn [stack_ok].
  - intros []. constructor; auto using nodes_mono.
  - intros [[] S]. split; auto. constructor; auto using nodes_mono, start_of_mono, ended_mono.
Qed.
Lemma stack_false done ts hi c ps : stack_ok done ts hi c ps -> stack_ok false ts hi c ps.
Proof.
  revert hi c; induction ps as [|p ps IH]; intros hi c; cbn [stack_ok].
  - intros []. constructor; eauto using nodes_false.
  - intros [[] S]. split; auto. constructor; eauto using nodes_false, start_of_false.
Qed.
Lemma start_of_children done ts n l : start_of t done ts n -> start_of t done ts (set_children l n).
Proof. intros H. exact H. Qed.

(** Popping a finished node. *)
Lemma stack_pop done ts c par ps hi :
  all_nodes (node_ok done ts) c -> stack_ok done ts (n_start c) par ps -> n_end c <= hi -> hi <= len ->
  stack_ok done ts hi (add_child par c) ps.
Proof.
  intros A S L L'. inversion A as [? B _]; subst. destruct (ok_span _ _ _ _ _ _ _ B) as [B1 B2].
  destruct ps as [|p ps]; cbn [stack_ok] in *.
  - destruct S. constructor; cbn; auto.
    + eapply chain_snoc; eauto.
    + apply Forall_app. auto.
  - destruct S as [[] S]. split; auto. constructor; cbn; auto.
    + destruct op_ste0 as (s & E1 & E2 & E3). exists s. repeat split; auto. eapply chain_snoc; eauto.
    + apply Forall_app. auto.
Qed.

(** An open element that is never closed, ending at [e]. *)
Lemma open_finish done ts c e :
  open_ok done ts c e -> (e = len \/ is_prefix (bs "</") (skipn e t) = true) ->
  all_nodes (node_ok done ts) (set_closed false (set_end e c)).
Proof.
  intros [] H. constructor; auto. destruct op_ste0 as (s & E1 & E2 & E3).
  pose proof (chain_le _ _ _ E3). constructor; cbn; auto; try lia.
  eapply C_open; cbn; eauto.
Qed.

(** The implicit closing of inner elements by an end tag. *)
Lemma close_inner_ok ts e name :
  is_prefix (bs "</") (skipn e t) = true ->
  forall k p, stack_ok true ts e (cur p) (parents p) -> end_tag_start p = Some e ->
  find_open U cs (cur p) (parents p) name = Some k ->
  exists p', close_inner k p = Ok p' /\ stack_ok true ts e (cur p') (parents p') /\ parents p' <> [] /\
    end_tag_start p' = Some e /\ is_same_tag U cs (cur p') name = true.
Proof.
  intros HP. induction k as [|k IH]; intros [c ps es en pd] S E F; cbn [cur parents end_tag_start] in *.
  - exists (mkP c ps es en pd). destruct ps as [|par ps]; cbn [find_open] in F; [discriminate|].
    destruct (is_same_tag U cs c name) eqn:Q.
    + split; [reflexivity|]. split; [exact S|]. split; [discriminate|]. auto.
    + destruct (find_open U cs par ps name); discriminate.
  - destruct ps as [|par ps]; cbn [find_open] in F; [discriminate|].
    destruct (is_same_tag U cs c name) eqn:Q; [discriminate|].
    destruct (find_open U cs par ps name) as [k'|] eqn:F'; [|discriminate]. inv F.
    cbn [close_inner end_tag_start]. cbn [unwrap bind pop upd_cur parents cur].
    destruct S as [S1 S2].
    pose proof (open_finish _ _ _ _ S1 (or_intror HP)) as A.
    apply IH; cbn; auto.
    + eapply stack_pop; eauto. destruct S1; auto.
    + destruct ps; cbn [find_open] in *; auto.
Qed.

(** ** The invariant *)
Record tag_inv (ts : list token) (ks : list token) (q : nat) (p : pstate) : Prop := {
  ti_ts : exists pre op, ts = pre ++ op :: ks /\ tk_type op = StartTagOpen /\ tk_off op = n_start (cur p);
  ti_in : Forall (fun k => in_tag (tk_state k) = true) ks;
  ti_tag : n_tag (cur p) = tag_in t ks;
  ti_attrs : forall x, attr_get x (n_attrs (cur p)) = attr_in t x ks;
  ti_keys : NoDup (map fst (n_attrs (cur p)));
  ti_children : n_children (cur p) = [];
  ti_closed : n_closed (cur p) = false;
  ti_ste : n_ste (cur p) = None;
  ti_ets : n_ets (cur p) = None;
  ti_lt : nth_error t (n_start (cur p)) = Some LT;
  ti_start : n_start (cur p) < q;
  ti_pos : q <= len;
  ti_stack : exists par ps, parents p = par :: ps /\ stack_ok true ts (n_start (cur p)) par ps
}.

Definition pend (ks : list token) (p : pstate) (r : list token) : Prop :=
  exists ks' kn w, ks = ks' ++ kn :: w ++ r /\ tk_type kn = AttributeName /\
    Forall (is_type Whitespace) w /\ pending p = Some (tk_text t kn).

Definition J (ts : list token) (sc : scanner) (p : pstate) : Prop :=
  pos sc <= len /\
  match st sc with
  | AfterOpeningStartTag =>
      exists ks, tag_inv ts ks (pos sc) p /\ n_tag (cur p) = None /\ ws_run t (n_start (cur p) + 1) (pos sc)
  | WithinTag =>
      exists ks, tag_inv ts ks (pos sc) p /\ tag_text U t (n_start (cur p)) (n_tag (cur p))
  | AfterAttributeName =>
      exists ks, tag_inv ts ks (pos sc) p /\ tag_text U t (n_start (cur p)) (n_tag (cur p)) /\ pend ks p []
  | BeforeAttributeValue =>
      exists ks, tag_inv ts ks (pos sc) p /\ tag_text U t (n_start (cur p)) (n_tag (cur p)) /\
        exists ka, tk_type ka = DelimiterAssign /\ pend ks p [ka]
  | AfterOpeningEndTag =>
      exists e, stack_ok true ts e (cur p) (parents p) /\ end_tag_start p = Some e /\ end_tag_name p = None /\
        is_prefix (bs "</") (skipn e t) = true /\ ws_run t (e + 2) (pos sc)
  | WithinEndTag =>
      exists e a, stack_ok true ts e (cur p) (parents p) /\ end_tag_start p = Some e /\
        is_prefix (bs "</") (skipn e t) = true /\ ws_run t (e + 2) a /\
        ((exists x b, end_tag_name p = Some (norm U cs x) /\ elem_name U t a b /\ x = sub t a b /\
                      ws_run t b (pos sc)) \/
         (end_tag_name p = None /\ (forall b, ~ elem_name U t a b) /\ first_byte t a GT (pos sc)))
  | _ => stack_ok true ts (pos sc) (cur p) (parents p)
  end.

(** Extending a start tag by a token. *)
Lemma tag_inv_ext ts ks q p k p' q' :
  tag_inv ts ks q p -> parents p' = parents p ->
  n_start (cur p') = n_start (cur p) -> n_children (cur p') = n_children (cur p) ->
  n_closed (cur p') = n_closed (cur p) -> n_ste (cur p') = n_ste (cur p) -> n_ets (cur p') = n_ets (cur p) ->
  in_tag (tk_state k) = true ->
  n_tag (cur p') = tag_in t (ks ++ [k]) ->
  (forall x, attr_get x (n_attrs (cur p')) = attr_in t x (ks ++ [k])) ->
  NoDup (map fst (n_attrs (cur p'))) ->
  q <= q' -> q' <= len ->
  tag_inv (ts ++ [k]) (ks ++ [k]) q' p'.
Proof.
  intros [] E1 E2 E3 E4 E5 E6 I T A N L1 L2. constructor; try congruence; auto.
  - destruct ti_ts0 as (pre & op & -> & Q). exists pre, op. rewrite E2, <- app_assoc. auto.
  - apply Forall_app; auto.
  - lia.
  - destruct ti_stack0 as (par & ps & Q1 & Q2). exists par, ps. split; [congruence|].
    rewrite E2. apply stack_mono. auto.
Qed.

(** A token inside a start tag that the parser ignores. *)
Lemma tag_inv_skip ts ks q p k q' :
  tag_inv ts ks q p -> in_tag (tk_state k) = true ->
  tk_type k = Whitespace \/ tk_type k = Unknown -> q <= q' -> q' <= len ->
  tag_inv (ts ++ [k]) (ks ++ [k]) q' p.
Proof.
  intros H I T L1 L2. eapply tag_inv_ext; eauto.
  - rewrite tag_in_app. destruct H. destruct T as [-> | ->]; cbn; auto.
  - intros x. rewrite attr_in_app by (destruct T; congruence). destruct H. destruct T as [-> | ->]; cbn; auto.
  - destruct H; auto.
Qed.

Lemma slice_bd a b : a <= b -> Bd t a -> Bd t b -> slice t a b = Ok (sub t a b).
Proof.
  intros L A B. apply slice_ok. repeat split; auto using Bd_boundary. apply Bd_le; auto.
Qed.

(** Adding a name token. *)
Lemma tag_inv_name ts ks q p k :
  tag_inv ts ks q p -> in_tag (tk_state k) = true -> tk_type k = AttributeName ->
  q <= tk_end k -> tk_end k <= len ->
  tag_inv (ts ++ [k]) (ks ++ [k]) (tk_end k)
    (mkP (set_attrs (attr_insert (tk_text t k) (mkAttr None (tk_off k)) (n_attrs (cur p))) (cur p))
         (parents p) (end_tag_start p) (end_tag_name p) (Some (tk_text t k))).
Proof.
  intros H I T L1 L2. eapply tag_inv_ext; eauto; cbn.
  - rewrite tag_in_app, T. destruct H; auto.
  - intros x. rewrite attr_in_app by congruence. rewrite T, attr_get_insert. cbn.
    destruct H. rewrite ti_attrs0. auto.
  - apply attr_insert_nodup. destruct H; auto.
Qed.

Lemma tag_inv_assign ts ks q p k :
  tag_inv ts ks q p -> pend ks p [] -> in_tag (tk_state k) = true -> tk_type k = DelimiterAssign ->
  q <= tk_end k -> tk_end k <= len ->
  exists a, pending p = Some a /\ exists n, set_attr_value [] a (cur p) = Ok n /\
    n_start n = n_start (cur p) /\ n_tag n = n_tag (cur p) /\
    tag_inv (ts ++ [k]) (ks ++ [k]) (tk_end k) (upd_cur (fun _ => n) p) /\
    pend (ks ++ [k]) (upd_cur (fun _ => n) p) [k].
Proof.
  intros H (ks' & kn & w & E & K & W & P) I T L1 L2. rewrite app_nil_r in E.
  exists (tk_text t kn). split; auto.
  pose proof (ti_attrs _ _ _ _ H (tk_text t kn)) as G.
  rewrite E in G. pose proof (attr_in_name t ks' kn w [] K W (or_introl eq_refl)) as G'.
  rewrite app_nil_r in G'. rewrite G' in G. unfold set_attr_value. rewrite G. cbn [unwrap bind a_off].
  eexists. split; [reflexivity|]. split; [reflexivity|]. split; [reflexivity|]. split.
  - eapply tag_inv_ext; eauto; cbn.
    + rewrite tag_in_app, T. destruct H; auto.
    + intros x. rewrite attr_get_insert. rewrite E, attr_in_assign by auto.
      destruct H. rewrite ti_attrs0, E. auto.
    + apply attr_insert_nodup. destruct H; auto.
  - exists ks', kn, w. rewrite E, <- app_assoc. auto.
Qed.

Lemma tag_inv_value ts ks q p ka k :
  tag_inv ts ks q p -> tk_type ka = DelimiterAssign -> pend ks p [ka] ->
  in_tag (tk_state k) = true -> tk_type k = AttributeValue ->
  q <= tk_end k -> tk_end k <= len ->
  exists a, pending p = Some a /\ exists n, set_attr_value (tk_text t k) a (cur p) = Ok n /\
    n_start n = n_start (cur p) /\ n_tag n = n_tag (cur p) /\
    tag_inv (ts ++ [k]) (ks ++ [k]) (tk_end k) (mkP n (parents p) (end_tag_start p) (end_tag_name p) None).
Proof.
  intros H A (ks' & kn & w & E & K & W & P) I T L1 L2.
  exists (tk_text t kn). split; auto.
  pose proof (ti_attrs _ _ _ _ H (tk_text t kn)) as G.
  rewrite E in G. rewrite (attr_in_name t ks' kn w [ka]) in G by eauto.
  unfold set_attr_value. rewrite G. cbn [unwrap bind a_off].
  eexists. split; [reflexivity|]. split; [reflexivity|]. split; [reflexivity|].
  eapply tag_inv_ext; eauto; cbn.
  + rewrite tag_in_app, T. destruct H; auto.
  + intros x. rewrite attr_get_insert. rewrite E, attr_in_value by auto.
    destruct H. rewrite ti_attrs0, E. auto.
  + apply attr_insert_nodup. destruct H; auto.
Qed.

(** The start tag ends: the node with its tag. *)
Lemma tag_start_of ts ks q p k done :
  tag_inv ts ks q p -> in_tag (tk_state k) = false ->
  start_of t done (ts ++ [k]) (set_ste (ste_of [k]) (cur p)).
Proof.
  intros [] I. destruct ti_ts0 as (pre & op & -> & Q1 & Q2).
  exists pre, op, ks, [k]. cbn. repeat split; auto.
  - rewrite <- app_assoc. auto.
  - discriminate.
  - intros k1 r E. inv E. auto.
Qed.

Lemma content_J ts sc p : stack_ok true ts (pos sc) (cur p) (parents p) -> pos sc <= len ->
  in_tag (st sc) = false -> st sc <> AfterOpeningEndTag -> st sc <> WithinEndTag -> J ts sc p.
Proof. intros S L I N1 N2. split; auto. destruct (st sc); try discriminate; auto; congruence. Qed.

Lemma content_like_stack ts sc p : J ts sc p -> content_like t sc ->
  stack_ok true ts (pos sc) (cur p) (parents p).
Proof. intros [_ H] [E|[[E _]|[E _]]]; rewrite E in H; auto. Qed.

(** One token. *)
Lemma tag_step ts ks sc1 sc' p :
  pos sc1 < len -> st sc1 = WithinTag ->
  tag_inv ts ks (pos sc1) p -> tag_text U t (n_start (cur p)) (n_tag (cur p)) ->
  tag_outcome U t true cs sc1 sc' ->
  exists p', pstep U t cs void sc' p = Ok p' /\ J (ts ++ [token_of sc']) sc' p'.
Proof.
  intros L ES TI TT H. inv H; unfold pstep; cbn [tok finish].
  - (* white space *)
    apply skip_ws_some in H0 as K. destruct K as (K1 & K2 & _).
    eexists; split; [reflexivity|].
    match goal with |- context [ts ++ [?k]] => set (K := k) end. split; cbn; [lia|].
    rewrite ES. exists (ks ++ [K]).
    split; auto. eapply tag_inv_skip; eauto; cbn; try lia. rewrite ES. auto.
  - (* attribute name *)
    pose proof (bd_attr t HU _ _ H2) as B.
    destruct H2 as (A1 & A2 & A3 & A4). apply boundary_Bd in A3; auto; [|lia].
    unfold token_text. cbn [tok_off finish pos]. rewrite slice_bd by (auto; lia). cbn [bind].
    eexists; split; [reflexivity|].
    match goal with |- context [ts ++ [?k]] => set (K := k) end. split; cbn; [lia|].
    exists (ks ++ [K]). split; [|split].
    + apply (tag_inv_name ts ks (pos sc1) p K); auto; cbn; lia.
    + auto.
    + exists ks, K, []. cbn. repeat split; auto.
  - (* self close *)
    apply is_prefix_skipn_length in H0 as K; [|discriminate]. cbn in K.
    destruct (ti_stack _ _ _ _ TI) as (par & ps & EP & ST). rewrite EP.
    unfold pop. cbn [upd_cur parents]. rewrite EP. eexists; split; [reflexivity|].
    match goal with |- J (ts ++ [?k]) _ _ => set (K0 := k) end.
    apply content_J; cbn; auto; try discriminate; try lia.
    apply stack_pop with (done := true) (hi := pos sc1 + 2); cbn; auto; try lia.
    2: apply stack_mono; auto.
    pose proof (ti_start _ _ _ _ TI) as Q0.
    constructor; [constructor|]; cbn; try (apply TI); auto; try lia.
    + apply (tag_start_of _ _ _ _ K0 true TI). reflexivity.
    + apply C_self; cbn; try (apply TI); auto.
      exists K0. rewrite in_app_iff. cbn. repeat split; auto. lia.
    + rewrite (ti_children _ _ _ _ TI). constructor.
  - (* close *)
    destruct (ti_stack _ _ _ _ TI) as (par & ps & EP & ST). rewrite EP.
    pose proof (ti_start _ _ _ _ TI) as Q0.
    cbn [pos tok_off finish]. replace (0 <? pos sc1 + 1 - pos sc1) with true by lia.
    cbn [upd_cur cur n_tag set_end set_ste].
    match goal with |- context [J (ts ++ [?k]) _ _] => set (K0 := k) end.
    assert (IT : in_tag (after_close sc1) = false).
    { unfold after_close. destruct (opt_beq _ _); [destruct (last_type sc1); auto|].
      destruct (opt_beq _ _); auto. }
    assert (IT' : after_close sc1 <> AfterOpeningEndTag /\ after_close sc1 <> WithinEndTag).
    { unfold after_close. destruct (opt_beq _ _); [destruct (last_type sc1); split; discriminate|].
      destruct (opt_beq _ _); split; discriminate. }
    assert (SO : start_of t true (ts ++ [K0]) (set_ste (Some (pos sc1 + 1)) (set_end (pos sc1 + 1) (cur p)))).
    { pose proof (tag_start_of _ _ _ _ K0 true TI IT) as Q.
      replace (ste_of [K0]) with (Some (pos sc1 + 1)) in Q; [exact Q|].
      unfold ste_of. cbn -[Nat.ltb]. replace (pos sc1 <? pos sc1 + 1) with true by lia. auto. }
    assert (EN : forall n, n_ste n = Some (pos sc1 + 1) -> ended (ts ++ [K0]) n StartTagClose).
    { intros n E. exists K0. rewrite in_app_iff. cbn. repeat split; auto. lia. }
    assert (OPEN : is_void void (n_tag (cur p)) = false ->
      J (ts ++ [K0]) (finish (no_attr t sc1) (pos sc1) StartTagClose None (pos sc1 + 1) (after_close sc1))
        {| cur := set_ste (Some (pos sc1 + 1)) (set_end (pos sc1 + 1) (cur p)); parents := parents p;
           end_tag_start := end_tag_start p; end_tag_name := end_tag_name p; pending := pending p |}).
    { intros V. apply content_J; cbn; auto; try tauto; try lia. rewrite EP. cbn [stack_ok].
      split; [|apply stack_mono; auto].
      constructor; cbn; try (apply TI); auto; try lia.
      - exists (pos sc1 + 1). rewrite (ti_children _ _ _ _ TI). cbn. repeat split; auto. lia.
      - rewrite (ti_children _ _ _ _ TI). constructor. }
    destruct (n_tag (cur p)) as [tag|] eqn:ET.
    2: { eexists; split; [reflexivity|]. apply OPEN. reflexivity. }
    destruct (is_void_element tag void) eqn:EV.
    2: { eexists; split; [reflexivity|]. apply OPEN. exact EV. }
    unfold pop. cbn [upd_cur parents]. rewrite EP. eexists; split; [reflexivity|].
    apply content_J; cbn; auto; try tauto; try lia.
    apply stack_pop with (done := true) (hi := pos sc1 + 1); cbn; auto; try lia.
    2: apply stack_mono; auto.
    constructor; [constructor|]; cbn; try (apply TI); auto; try lia.
    + rewrite ET; auto.
    + apply C_void; cbn; try (apply TI); auto. rewrite ET. exact EV.
    + rewrite (ti_children _ _ _ _ TI). constructor.
  - (* pseudo close *)
    destruct (ti_stack _ _ _ _ TI) as (par & ps & EP & ST). rewrite EP.
    pose proof (ti_start _ _ _ _ TI) as Q0.
    cbn [pos tok_off finish]. rewrite Nat.sub_diag. cbn [Nat.ltb Nat.leb]. unfold pop. cbn [upd_cur parents].
    rewrite EP. eexists; split; [reflexivity|].
    match goal with |- J (ts ++ [?k]) _ _ => set (K0 := k) end.
    apply content_J; cbn; auto; try discriminate; try lia.
    apply stack_pop with (done := true) (hi := pos sc1); cbn; auto; try lia.
    2: apply stack_mono; auto.
    constructor; [constructor|]; cbn; try (apply TI); auto; try lia.
    + pose proof (tag_start_of _ _ _ _ K0 true TI eq_refl) as Q.
      replace (ste_of [K0]) with (n_ste (cur p)) in Q; [destruct (cur p); exact Q|].
      rewrite (ti_ste _ _ _ _ TI). unfold ste_of. cbn -[Nat.ltb]. rewrite Nat.ltb_irrefl. auto.
    + apply C_cut; cbn; try (apply TI); auto. right.
      destruct (ti_ts _ _ _ _ TI) as (pre & op & TS & Q1 & Q2). exists pre, op, ks, K0, [].
      rewrite TS. cbn [n_start n_end set_end]. rewrite <- app_assoc. repeat split; auto; apply TI.
    + rewrite (ti_children _ _ _ _ TI). constructor.
  - (* unknown *)
    eexists; split; [reflexivity|].
    match goal with |- context [ts ++ [?k]] => set (K := k) end. split; cbn; [lia|].
    rewrite ES. exists (ks ++ [K]).
    split; auto. eapply tag_inv_skip; eauto; cbn; try lia. rewrite ES. auto.
Qed.

Lemma step ts sc p sc' : J ts sc p -> outcome sc sc' -> tok sc' <> EOS ->
  exists p', pstep U t cs void sc' p = Ok p' /\ J (ts ++ [token_of sc']) sc' p'.
Proof.
  intros HJ H NE. destruct HJ as [HL HJ'] eqn:EJ. clear EJ.
  assert (PG := outcome_progress _ _ _ _ _ _ H).
  inv H; unfold pstep; cbn [tok finish] in *.
  - congruence.
  - (* --> *)
    rewrite H0 in HJ'. eexists; split; [reflexivity|].
    apply is_prefix_skipn_length in H1 as K; [|discriminate]. cbn in K.
    apply content_J; cbn; auto; try discriminate; try lia.
    apply stack_mono. eapply stack_weaken; eauto; lia.
  - rewrite H1 in HJ'. eexists; split; [reflexivity|].
    destruct H3 as (F1 & F2 & _).
    apply content_J; cbn; auto; try discriminate; try lia.
    apply stack_mono. eapply stack_weaken; eauto; lia.
  - rewrite H0 in HJ'. eexists; split; [reflexivity|].
    apply nth_error_lt in H1 as K.
    apply content_J; cbn; auto; try discriminate; try lia.
    apply stack_mono. eapply stack_weaken; eauto; lia.
  - rewrite H1 in HJ'. eexists; split; [reflexivity|].
    destruct H3 as (F1 & F2 & _).
    apply content_J; cbn; auto; try discriminate; try lia.
    apply stack_mono. eapply stack_weaken; eauto; lia.
  - (* <!-- *)
    apply content_like_stack in HJ; auto. eexists; split; [reflexivity|].
    apply is_prefix_skipn_length in H1 as K; [|discriminate]. cbn in K.
    apply content_J; cbn; auto; try discriminate; try lia.
    apply stack_mono. eapply stack_weaken; eauto; lia.
  - (* doctype *)
    apply content_like_stack in HJ; auto. eexists; split; [reflexivity|].
    apply m_doctype_some in H3 as (_ & _ & K & _). rewrite skipn_length in K.
    apply content_J; cbn; auto; try discriminate; try lia.
    apply stack_mono. eapply stack_weaken; eauto; lia.
  - (* </ *)
    apply content_like_stack in HJ; auto. eexists; split; [reflexivity|].
    apply nth_error_lt in H2 as K.
    split; cbn; [lia|]. exists (pos sc). repeat split; auto; try lia.
    + apply stack_mono; auto.
    + rewrite (skipn_cons _ _ _ H1). replace (S (pos sc)) with (pos sc + 1) by lia.
      rewrite (skipn_cons _ _ _ H2). reflexivity.
  - (* < *)
    apply content_like_stack in HJ; auto. eexists; split; [reflexivity|].
    apply nth_error_lt in H1 as K.
    split; cbn; [lia|]. exists []. repeat split; cbn; auto; try lia.
    + eauto.
    + constructor.
    + exists (cur p), (parents p). split; auto. apply stack_mono; auto.
  - (* content *)
    rewrite H0 in HJ'. eexists; split; [reflexivity|].
    destruct H3 as (F1 & F2 & _).
    apply content_J; cbn; auto; try discriminate; try lia.
    apply stack_mono. eapply stack_weaken; eauto; lia.
  - (* end tag name *)
    rewrite H0 in HJ'. destruct HJ' as (e0 & S & E1 & E2 & E3 & E4).
    destruct (bd_elem U t HU _ _ H1) as [B1 B2]. destruct H1 as (A1 & A2 & A3 & A4).
    unfold token_text. cbn [tok_off finish pos]. rewrite slice_bd by (auto; lia). cbn [bind].
    eexists; split; [reflexivity|]. split; cbn; [lia|].
    exists e0, (pos sc). split; [apply stack_mono; auto|]. repeat (split; auto).
    left. exists (sub t (pos sc) e), e. split; [reflexivity|]. split; [split; auto|]. split; auto.
    apply ws_run_nil; auto.
  - (* white space after </ *)
    rewrite H0 in HJ'. destruct HJ' as (e0 & S & E1 & E2 & E3 & E4).
    eexists; split; [reflexivity|].
    apply skip_ws_some in H1 as K. destruct K as (K1 & K2 & _).
    split; cbn; [lia|]. exists e0. split; [apply stack_mono; auto|]. repeat (split; auto).
    all: pose proof (ws_run_ext _ _ _ _ E4 H1) as [Q1 [Q2 Q3]]; auto.
  - (* no name after </ *)
    rewrite H0 in HJ'. destruct HJ' as (e0 & S & E1 & E2 & E3 & E4).
    eexists; split; [reflexivity|]. destruct H1 as (F1 & F2 & F3).
    split; cbn; [lia|]. exists e0, (pos sc). split; [apply stack_mono; auto|]. split; auto. split; auto.
    split; auto. right. split; auto. split; [apply no_name_none; auto|]. split; auto.
  - (* white space in end tag *)
    rewrite H0 in HJ'. destruct HJ' as (e0 & a & S & E1 & E3 & E4 & E5).
    eexists; split; [reflexivity|].
    apply skip_ws_some in H1 as K. destruct K as (K1 & K2 & K3 & _).
    split; cbn; [lia|]. exists e0, a. split; [apply stack_mono; auto|]. split; auto. split; auto. split; auto.
    destruct E5 as [(x & b & X1 & X2 & X3 & X4)|(X1 & X2 & (F1 & F2 & F3 & F4))].
    + left. exists x, b. repeat (split; auto). all: pose proof (ws_run_ext _ _ _ _ X4 H1) as [Q1 [Q2 Q3]]; auto.
    + exfalso. destruct F4 as [F4|F4]; [lia|].
      destruct (K3 (pos sc)) as (z & Z1 & Z2); try lia. rewrite F4 in Z1. inv Z1. discriminate.
  - (* end tag close *)
    apply nth_error_lt in H1 as K.
    assert (HC : exists e, stack_ok true ts e (cur p) (parents p) /\ end_tag_start p = Some e /\
      is_prefix (bs "</") (skipn e t) = true /\ e + 2 <= pos sc /\
      exists x, end_tag_name p = option_map (norm U cs) x /\ end_tag_text U t e x (pos sc + 1)).
    { destruct H0 as [E|E]; rewrite E in HJ'.
      - destruct HJ' as (e0 & a & S & E1 & E3 & E4 & E5). exists e0. repeat (split; auto).
        + destruct E4 as (Q & _). destruct E5 as [(x & b & X1 & (X2 & _) & X3 & (X4 & _))|(X1 & X2 & (F1 & _))]; lia.
        + destruct E5 as [(x & b & X1 & X2 & X3 & X4)|(X1 & X2 & X4)].
          * exists (Some x). split; auto. split; auto. exists a. split; auto. exists b, (pos sc). auto 10.
          * exists None. split; auto. split; auto. exists a. split; auto. split; auto. exists (pos sc). auto.
      - destruct HJ' as (e0 & S & E1 & E2 & E3 & E4). exists e0. repeat (split; auto).
        + destruct E4; auto.
        + exists None. split; auto. split; auto. exists (pos sc). split; auto.
          split; [apply no_name_none, no_name_gt; auto|].
          exists (pos sc). split; auto. repeat split; auto; lia. }
    clear HJ'. destruct HC as (e & S & E1 & E2 & E3 & x & E4 & E5).
    destruct (find_open U cs (cur p) (parents p) (end_tag_name p)) as [k|] eqn:F.
    2: { eexists; split; [reflexivity|]. apply content_J; cbn; auto; try discriminate; try lia.
         apply stack_mono. eapply stack_weaken; eauto; lia. }
    destruct (close_inner_ok ts e _ E2 k p S E1 F) as (p' & -> & S' & NP & E1' & SM).
    cbn [bind]. unfold pop. cbn [upd_cur parents].
    destruct (parents p') as [|par ps] eqn:EP; [congruence|]. eexists; split; [reflexivity|].
    apply content_J; cbn; auto; try discriminate; try lia.
    destruct S' as [[] S']. 
    apply stack_pop with (done := true) (hi := pos sc + 1); cbn; auto; try lia.
    2: apply stack_mono; auto.
    destruct op_ste0 as (s & Q1 & Q2 & Q3). pose proof (chain_le _ _ _ Q3).
    constructor; [constructor|]; cbn; auto; try lia.
    + exact (start_of_mono _ _ _ op_start0).
    + eapply C_end; cbn; eauto; try lia.
      * rewrite <- E4. exact SM.
      * apply ended_mono; auto.
    + apply nodes_mono; auto.
  - (* end tag pseudo close *)
    apply nth_error_lt in H2 as K.
    rewrite H0 in HJ'. destruct HJ' as (e & a & S & E1 & E2 & E4 & E5).
    assert (HC : e + 2 <= pos sc /\ exists x, end_tag_name p = option_map (norm U cs) x /\ end_tag_text U t e x (pos sc)).
    { split.
      + destruct E4 as (Q & _). destruct E5 as [(x & b & X1 & (X2 & _) & X3 & (X4 & _))|(X1 & X2 & (F1 & _))]; lia.
      + destruct E5 as [(x & b & X1 & X2 & X3 & X4)|(X1 & X2 & (_ & _ & _ & [X4|X4]))].
        * exists (Some x). split; auto. split; auto. exists a. split; auto. exists b, (pos sc). auto 10.
        * lia.
        * rewrite H2 in X4; discriminate. }
    clear E4 E5. destruct HC as (E3 & x & E4 & E5).
    destruct (find_open U cs (cur p) (parents p) (end_tag_name p)) as [k|] eqn:F.
    2: { eexists; split; [reflexivity|]. apply content_J; cbn; auto; try discriminate; try lia.
         apply stack_mono. eapply stack_weaken; eauto; lia. }
    destruct (close_inner_ok ts e _ E2 k p S E1 F) as (p' & -> & S' & NP & E1' & SM).
    cbn [bind]. unfold pop. cbn [upd_cur parents].
    destruct (parents p') as [|par ps] eqn:EP; [congruence|]. eexists; split; [reflexivity|].
    apply content_J; cbn; auto; try discriminate; try lia.
    destruct S' as [[] S']. 
    apply stack_pop with (done := true) (hi := pos sc); cbn; auto; try lia.
    2: apply stack_mono; auto.
    destruct op_ste0 as (s & Q1 & Q2 & Q3). pose proof (chain_le _ _ _ Q3).
    constructor; [constructor|]; cbn; auto; try lia.
    + exact (start_of_mono _ _ _ op_start0).
    + eapply C_end; cbn; eauto; try lia.
      * rewrite <- E4. exact SM.
      * apply ended_mono; auto.
    + apply nodes_mono; auto.
  - (* unexpected character in end tag *)
    rewrite H1 in HJ'. destruct HJ' as (e & a & S & E1 & E2 & E4 & E5).
    eexists; split; [reflexivity|]. apply content_J; cbn; auto; try discriminate; try lia.
    apply stack_mono. eapply stack_weaken; eauto; try lia.
    destruct E4 as (Q & _). destruct E5 as [(x & b & X1 & (X2 & _) & X3 & (X4 & _))|(X1 & X2 & (F1 & _))]; lia.
  - (* start tag name *)
    rewrite H0 in HJ'. destruct HJ' as (ks & TI & ET & W).
    destruct (bd_elem U t HU _ _ H1) as [B1 B2]. assert (A := H1). destruct A as (A1 & A2 & A3 & A4).
    unfold token_text. cbn [tok_off finish pos]. rewrite slice_bd by (auto; lia). cbn [bind].
    eexists; split; [reflexivity|].
    match goal with |- context [ts ++ [?k]] => set (K := k) end. split; cbn; [lia|].
    exists (ks ++ [K]). split.
    + eapply tag_inv_ext; eauto; cbn; try lia.
      * rewrite tag_in_app. reflexivity.
      * intros x. rewrite attr_in_app by discriminate. change (token_eqb (tk_type K) AttributeName) with false. apply TI.
      * destruct TI; auto.
    + exists (pos sc). split; auto. exists e. auto.
  - (* white space after < *)
    rewrite H0 in HJ'. destruct HJ' as (ks & TI & ET & W).
    apply skip_ws_some in H1 as K. destruct K as (K1 & K2 & _).
    eexists; split; [reflexivity|].
    match goal with |- context [ts ++ [?k]] => set (K := k) end. split; cbn; [lia|].
    exists (ks ++ [K]). split; [|split; auto; eapply ws_run_ext; eauto].
    eapply tag_inv_skip; eauto; cbn; auto; lia.
  - (* no name after < *)
    rewrite H0 in HJ'. destruct HJ' as (ks & TI & ET & W). destruct H1 as (F1 & F2 & _).
    eexists; split; [reflexivity|].
    match goal with |- context [ts ++ [?k]] => set (K := k) end. split; cbn; [lia|].
    exists (ks ++ [K]). split.
    + eapply tag_inv_skip; eauto; cbn; auto; lia.
    + exists (pos sc). split; auto. rewrite ET. split; [apply no_name_none; auto|].
      intros x X. eapply skip_ws_none; eauto.
  - (* in a tag *)
    assert (HT : exists ks, tag_inv ts ks (pos sc) p /\ tag_text U t (n_start (cur p)) (n_tag (cur p))).
    { inv H1; rewrite H in HJ' || rewrite H1 in HJ' || idtac.
      all: match goal with E : st _ = _ |- _ => try rewrite E in HJ' end.
      - destruct HJ' as (ks & TI & TT); eauto.
      - destruct HJ' as (ks & TI & ET & W). exists ks. split; auto. exists (pos sc). split; auto.
        rewrite ET. split; [apply no_name_none, no_name_gt; auto|]. intros x X.
        match goal with E : nth_error t (pos sc) = Some GT |- _ => rewrite E in X end. inv X. reflexivity.
      - destruct HJ' as (ks & TI & TT & _); eauto.
      - destruct HJ' as (ks & TI & TT & _); eauto. }
    destruct HT as (ks & TI & TT).
    pose proof (enter_tag_pos _ _ _ H1) as EP. pose proof (enter_tag_st _ _ _ H1) as ES.
    change (exists p' : pstate, pstep U t cs void sc' p = Ok p' /\ J (ts ++ [token_of sc']) sc' p').
    rewrite <- EP in TI, H0. eapply tag_step; eauto.
  - (* white space after attribute name *)
    rewrite H0 in HJ'. destruct HJ' as (ks & TI & TT & (ks' & kn & w & E & P1 & P2 & P3)).
    apply skip_ws_some in H1 as K. destruct K as (K1 & K2 & _).
    eexists; split; [reflexivity|].
    match goal with |- context [ts ++ [?k]] => set (K := k) end. split; cbn; [lia|].
    exists (ks ++ [K]). split; [eapply tag_inv_skip; eauto; cbn; auto; lia|]. split; auto.
    exists ks', kn, (w ++ [K]). rewrite app_nil_r in *. rewrite E, <- app_assoc. repeat split; auto.
    apply Forall_app. split; auto. constructor; auto. reflexivity.
  - (* = *)
    rewrite H0 in HJ'. destruct HJ' as (ks & TI & TT & P).
    apply nth_error_lt in H1 as L.
    match goal with |- context [ts ++ [?k]] => set (K := k) end.
    destruct (tag_inv_assign ts ks (pos sc) p K TI P) as (a & PA & n & E1 & E2 & E3 & E4 & E5);
      try reflexivity; cbn; try lia.
    rewrite PA. rewrite E1. cbn [bind]. eexists; split; [reflexivity|].
    split; cbn; [lia|]. exists (ks ++ [K]). split; auto. split.
    + rewrite E2, E3. auto.
    + exists K. auto.
  - (* white space after = *)
    rewrite H0 in HJ'. destruct HJ' as (ks & TI & TT & _).
    apply skip_ws_some in H1 as K. destruct K as (K1 & K2 & _).
    eexists; split; [reflexivity|].
    match goal with |- context [ts ++ [?k]] => set (K := k) end. split; cbn; [lia|].
    exists (ks ++ [K]). split; auto. eapply tag_inv_skip; eauto; cbn; auto; lia.
  - (* plain value *)
    rewrite H0 in HJ'. destruct HJ' as (ks & TI & TT & ka & A & P).
    pose proof (bd_plain t HU _ _ H2) as B. destruct H2 as (A1 & A2 & A3 & _).
    apply boundary_Bd in A3; auto; try lia.
    unfold token_text. cbn [tok_off finish pos]. rewrite slice_bd by (auto; lia). cbn [bind].
    match goal with |- context [ts ++ [?k]] => set (K := k) end.
    destruct (tag_inv_value ts ks (pos sc) p ka K TI A P) as (a & PA & n & E1 & E2 & E3 & E4);
      try reflexivity; cbn; try lia.
    rewrite PA. change (tk_text t K) with (sub t (pos sc) e) in E1. rewrite E1. cbn [bind]. eexists; split; [reflexivity|].
    split; cbn; [lia|]. exists (ks ++ [K]). split; auto. rewrite E2, E3. auto.
  - (* quoted value *)
    rewrite H0 in HJ'. destruct HJ' as (ks & TI & TT & ka & A & P).
    pose proof (bd_quoted t HU _ _ H1) as B. destruct H1 as (q & Q & A1 & A2 & A3 & _).
    assert (B' : Bd t (pos sc)) by (eapply Bd_at_ascii; eauto; destruct Q; subst; reflexivity).
    unfold token_text. cbn [tok_off finish pos]. rewrite slice_bd by (auto; lia). cbn [bind].
    match goal with |- context [ts ++ [?k]] => set (K := k) end.
    destruct (tag_inv_value ts ks (pos sc) p ka K TI A P) as (a & PA & n & E1 & E2 & E3 & E4);
      try reflexivity; cbn; try lia.
    rewrite PA. change (tk_text t K) with (sub t (pos sc) e) in E1. rewrite E1. cbn [bind]. eexists; split; [reflexivity|].
    split; cbn; [lia|]. exists (ks ++ [K]). split; auto. rewrite E2, E3. auto.
  - (* script *)
    rewrite H0 in HJ'. eexists; split; [reflexivity|]. apply script_run_le in H2 as K.
    destruct H3 as [->|[-> ->]]; apply content_J; cbn; auto; try discriminate; try lia;
      apply stack_mono; eapply stack_weaken; eauto; lia.
  - (* style *)
    rewrite H0 in HJ'. eexists; split; [reflexivity|]. destruct H2 as (F1 & F2 & _).
    apply content_J; cbn; auto; try discriminate; try lia;
      apply stack_mono; eapply stack_weaken; eauto; lia.
Qed.

(** ** The end of the text *)
Lemma final_stack ts sc p : J ts sc p -> len <= pos sc ->
  match parents p with
  | [] => root_ok false ts (cur p) len
  | par :: ps' => stack_ok false ts (n_start (cur p)) par ps' /\
      all_nodes (node_ok false ts) (set_closed false (set_end len (cur p)))
  end.
Proof.
  intros [L H] L'. assert (E : pos sc = len) by lia. rewrite E in *.
  assert (SC : forall hi, stack_ok true ts hi (cur p) (parents p) ->
     match parents p with
     | [] => root_ok false ts (cur p) len
     | par :: ps' => stack_ok false ts (n_start (cur p)) par ps' /\
      all_nodes (node_ok false ts) (set_closed false (set_end len (cur p)))
     end).
  { intros hi S. apply stack_weaken with (hi' := len) in S; auto; [|eapply stack_hi; eauto].
    apply stack_false in S. destruct (parents p); cbn [stack_ok] in S; auto.
    destruct S as [S1 S2]. split; auto. apply open_finish; auto. }
  assert (ST : forall ks, tag_inv ts ks len p -> tag_text U t (n_start (cur p)) (n_tag (cur p)) ->
     match parents p with
     | [] => root_ok false ts (cur p) len
     | par :: ps' => stack_ok false ts (n_start (cur p)) par ps' /\
      all_nodes (node_ok false ts) (set_closed false (set_end len (cur p)))
     end).
  { intros ks TI TT. destruct (ti_stack _ _ _ _ TI) as (par & ps & EP & S). rewrite EP. 
    split; [eapply stack_false; eauto|]. pose proof (ti_start _ _ _ _ TI) as Q0.
    constructor; [constructor|]; cbn; try (apply TI); auto; try lia.
    - destruct TI. destruct ti_ts0 as (pre & op & -> & Q1 & Q2).
      exists pre, op, ks, []. rewrite app_nil_r. cbn. repeat split; auto; discriminate.
    - apply C_cut; cbn; try (apply TI); auto.
    - rewrite (ti_children _ _ _ _ TI). constructor. }
  assert (M : match parents p with
     | [] => root_ok false ts (cur p) len
     | par :: ps' => stack_ok false ts (n_start (cur p)) par ps' /\
      all_nodes (node_ok false ts) (set_closed false (set_end len (cur p)))
     end).
  { destruct (st sc); try (exact (SC _ H)).
    - destruct H as (ks & TI & ET & W). eapply ST; eauto. exists len. rewrite ET. split; auto.
      split; [apply no_name_none, no_name_end; auto|]. intros x X. apply nth_error_lt in X. lia.
    - destruct H as (e & S & _). exact (SC _ S).
    - destruct H as (ks & TI & TT). exact (ST _ TI TT).
    - destruct H as (e & a & S & _). exact (SC _ S).
    - destruct H as (ks & TI & TT & _). exact (ST _ TI TT).
    - destruct H as (ks & TI & TT & _). exact (ST _ TI TT). }
  exact M.
Qed.

Lemma close_all_ok ts c ps : stack_ok false ts len c ps ->
  root_ok false ts (close_all t c ps) len.
Proof.
  revert c; induction ps as [|par ps IH]; intros c; cbn [stack_ok close_all]; auto.
  intros [S1 S2]. apply IH. apply open_finish in S1; auto.
  apply stack_pop with (done := false) (hi := len); auto.
Qed.

Definition tree_ok (ts : list token) (roots : list node) : Prop :=
  chain 0 roots len /\ Forall (all_nodes (node_ok false ts)) roots.

Lemma final_ok ts sc p : J ts sc p -> len <= pos sc ->
  tree_ok ts (n_children (close_all t (cur p) (parents p))).
Proof.
  intros H L. apply final_stack in H; auto.
  assert (R : root_ok false ts (close_all t (cur p) (parents p)) len).
  { destruct (parents p) as [|par ps]; cbn [close_all]; auto. destruct H as (S & A).
    apply close_all_ok. apply stack_pop with (done := false) (hi := len); auto. }
  destruct R. split; auto.
Qed.

Lemma loop_ok fuel : forall ts sc p, J ts sc p ->
  match tokens U t true cs fuel sc with
  | Ok (l, f) => exists p', parse_loop U t cs void fuel sc p = Ok p' /\
                   tree_ok (ts ++ l) (n_children (close_all t (cur p') (parents p')))
  | Panic r => parse_loop U t cs void fuel sc p = Panic r
  | OutOfFuel => parse_loop U t cs void fuel sc p = OutOfFuel
  end.
Proof.
  induction fuel as [|fuel IH]; intros ts sc p HJ; cbn [tokens parse_loop]; auto.
  destruct (scan U t true cs sc) as [sc'|r|] eqn:E; cbn [bind]; auto.
  destruct (token_eqb (tok sc') EOS) eqn:T.
  - apply token_eqb_eq in T. exists p. split; auto. rewrite app_nil_r. eapply final_ok; eauto.
    apply (scan_eos_iff U t true cs HU _ _ E) in T. auto.
  - apply token_eqb_neq in T. apply scan_outcome in E; auto.
    destruct (step _ _ _ _ HJ E T) as (p' & -> & HJ'). cbn [bind].
    specialize (IH _ _ _ HJ'). destruct (tokens U t true cs fuel sc') as [[l f]|r|]; cbn [bind]; auto.
    destruct IH as (p'' & Q1 & Q2). exists p''. split; auto. rewrite <- app_assoc in Q2. auto.
Qed.

Lemma J_init : J [] (scanner_new 0 WithinContent) (mkP (node_new 0 len) [] None None None).
Proof. split; cbn; [lia|]. constructor; cbn; auto; lia. Qed.

(** The whole parse. *)
Theorem parse_ok :
  match tokens U t true cs (scan_fuel t) (scanner_new 0 WithinContent) with
  | Ok (l, f) => exists roots, parse U t cs void = Ok roots /\ tree_ok l roots
  | Panic r => parse U t cs void = Panic r
  | OutOfFuel => False
  end.
Proof.
  pose proof (loop_ok (scan_fuel t) _ _ _ J_init) as H.
  unfold parse.
  destruct (tokens U t true cs (scan_fuel t) (scanner_new 0 WithinContent)) as [[l f]|r|] eqn:E.
  - destruct H as (p' & -> & H). cbn [bind]. eauto.
  - rewrite H. auto.
  - exfalso. eapply tokens_no_fuel; [exact HU| | |exact E]; unfold scan_fuel, measure; cbn -[Nat.mul Nat.sub Nat.leb]; [lia|destruct (length t <=? 0); lia].
Qed.
End Inv.
