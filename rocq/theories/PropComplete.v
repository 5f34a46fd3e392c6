(** * Completion (C42) *)
From Verif Require Import SelectionRange Base BaseFacts Stream Scanner ScannerFacts ScanStep ScanProps ScanShape ScanResume ScanPanic Tree
  Parser ParseSpec ParseInv ParseOrder PropParse TreeFacts PropTree ParseEnd PropEnd TextDoc PropDoc ScanComplete
  ScanLocal SelAttr TokenLoop NodeScan DataManager PropData BuiltinData Entities Hover Completion PropTagComplete.
From Coq Require Import ZifyBool ZifyNat ZifyN Sorted Permutation.

(** The tag name and the attribute name remembered after a token. *)
Definition tag_upd (t : str) (tag : option str) (k : token) : option str :=
  if token_eqb (tk_type k) StartTag then Some (tk_text t k) else tag.
Definition attr_upd (t : str) (attr : str) (k : token) : str :=
  if token_eqb (tk_type k) AttributeName then tk_text t k else attr.
Definition tag_at (t : str) (ks : list token) : option str := fold_left (tag_upd t) ks None.
Definition attr_at (t : str) (ks : list token) : str := fold_left (attr_upd t) ks [].

(** ** The attributes proposed *)
Lemma assoc_none {A} x (m : list (str * A)) : assoc x m = None <-> ~ In x (map fst m).
Proof.
  induction m as [|[y a] m IH]; cbn [assoc map fst In]; [tauto|]. destruct (beq x y) eqn:B.
  - apply beq_eq in B. subst. intuition congruence.
  - rewrite IH. assert (y <> x) by (intros QQ; rewrite QQ, beq_refl in B; discriminate). tauto.
Qed.
Lemma assoc_cons {A} x y (a : A) m : assoc x ((y, a) :: m) = if beq x y then Some a else assoc x m.
Proof. reflexivity. Qed.
Lemma assoc_names x (ns : list str) : assoc x (map (fun x => (x, true)) ns) =
  if in_dec (list_eq_dec N.eq_dec) x ns then Some true else None.
Proof.
  induction ns as [|y ns IH]; auto. cbn [map]. rewrite assoc_cons. destruct (beq x y) eqn:B.
  - apply beq_eq in B. subst. destruct (in_dec (list_eq_dec N.eq_dec) y (y :: ns)) as [Q|Q]; auto. exfalso. apply Q. cbn. auto.
  - rewrite IH. assert (y <> x) by (intros QQ; rewrite QQ, beq_refl in B; discriminate).
    destruct (in_dec (list_eq_dec N.eq_dec) x ns) as [Q|Q], (in_dec (list_eq_dec N.eq_dec) x (y :: ns)) as [R|R]; auto; exfalso; cbn in R; tauto.
Qed.
Lemma new_attrs_spec L : forall ex m e, new_attrs ex L = (m, e) ->
  NoDup (map a_name m) /\
  (forall x, In x (map a_name m) <-> In x (map a_name L) /\ assoc x ex <> Some true) /\
  (forall x, assoc x e = None <-> assoc x ex = None /\ ~ In x (map a_name m)).
Proof.
  induction L as [|a L IH]; intros ex m e H; cbn [new_attrs] in H.
  - inversion H; subst. cbn. split; [constructor|]. split; intros; tauto.
  - destruct (match assoc (a_name a) ex with Some b => b | None => false end) eqn:B.
    + destruct (IH _ _ _ H) as (I1 & I2 & I3). split; auto. split; auto. intros x. rewrite I2. cbn [map In].
      split; [tauto|]. intros [[<-|Q] N]; auto. exfalso. destruct (assoc (a_name a) ex) as [[]|]; congruence.
    + destruct (new_attrs ((a_name a, true) :: ex) L) as [m' e'] eqn:E. inversion H; subst. destruct (IH _ _ _ E) as (I1 & I2 & I3).
      cbn [map]. split; [|split].
      * constructor; auto. rewrite I2, assoc_cons, beq_refl. tauto.
      * intros x. cbn [In]. rewrite I2, assoc_cons. destruct (beq x (a_name a)) eqn:Q.
        -- apply beq_eq in Q. subst. split; [|auto]. intros _. split; auto. destruct (assoc (a_name a) ex) as [[]|]; congruence.
        -- assert (a_name a <> x) by (intros QQ; rewrite QQ, beq_refl in Q; discriminate). tauto.
      * intros x. rewrite I3, assoc_cons. cbn [In]. destruct (beq x (a_name a)) eqn:Q.
        -- apply beq_eq in Q. subst. split; [intros [? _]; discriminate|tauto].
        -- assert (a_name a <> x) by (intros QQ; rewrite QQ, beq_refl in Q; discriminate). tauto.
Qed.
Lemma add_data_spec ex ns : forall m, NoDup (map fst m) -> NoDup (map fst (fold_left (add_data ex) ns m)) /\
  forall x, In x (map fst (fold_left (add_data ex) ns m)) <->
    In x (map fst m) \/ (In x ns /\ is_prefix data_prefix x = true /\ assoc x ex = None).
Proof.
  induction ns as [|y ns IH]; intros m N; cbn [fold_left]; [split; [auto|intros x; cbn; tauto]|].
  unfold add_data at 2 4. destruct (is_prefix data_prefix y && negb (is_some (assoc y m)) && negb (is_some (assoc y ex))) eqn:B.
  - apply andb_prop in B as [B B3]. apply andb_prop in B as [B1 B2].
    assert (A1 : assoc y m = None) by (destruct (assoc y m); [discriminate|auto]).
    assert (A2 : assoc y ex = None) by (destruct (assoc y ex); [discriminate|auto]).
    destruct (IH ((y, y ++ bs "=""$1""") :: m)) as [I1 I2].
    { cbn [map fst]. constructor; auto. apply assoc_none. auto. }
    split; auto. intros x. rewrite I2. cbn [map fst In]. split; intros H; repeat destruct H as [H|H]; subst; auto; try tauto.
  - destruct (IH m N) as [I1 I2]. split; auto. intros x. rewrite I2. cbn [In]. split; [tauto|].
    intros [H|([<-|H] & H2 & H3)]; [auto| |tauto]. left. rewrite H2, H3 in B. cbn [andb is_some negb] in B.
    destruct (assoc y m) eqn:E; [|discriminate]. destruct (in_dec (list_eq_dec N.eq_dec) y (map fst m)) as [Q|Q]; auto.
    apply assoc_none in Q. congruence.
Qed.
Lemma all_names_in r x : In x (all_attr_names r) <-> exists n, In n (preorder r) /\ In x (attribute_names n).
Proof.
  revert r. apply (node_induction (fun r => In x (all_attr_names r) <-> exists n, In n (preorder r) /\ In x (attribute_names n))).
  intros r IH. rewrite preorder_eq. destruct r as [tg a b ch c e f attrs]. cbn [all_attr_names n_children n_attrs] in *.
  rewrite in_app_iff. change (map fst attrs) with (attribute_names (mkNode tg a b ch c e f attrs)).
  rewrite in_flat_map. rewrite Forall_forall in IH. split.
  - intros [H|(c' & C & H)]; [eexists; cbn; eauto|]. apply IH in H as (n & N & H); auto. exists n. split; auto.
    right. apply in_flat_map. eauto.
  - intros (n & [<-|N] & H); auto. right. apply in_flat_map in N as (c' & C & N). exists c'. split; auto. apply IH; eauto.
Qed.
Lemma NoDup_app_intro {A} (a b : list A) : NoDup a -> NoDup b -> (forall x, In x a -> In x b -> False) -> NoDup (a ++ b).
Proof.
  intros N M D. induction N as [|x a X N IH]; cbn [app]; auto. constructor.
  - intros Q. apply in_app_iff in Q as [Q|Q]; auto. apply (D x); cbn; auto.
  - apply IH. intros y Y. apply D. cbn. auto.
Qed.
Lemma is_prefix_head p s : is_prefix p s = true -> exists r, s = p ++ r.
Proof.
  revert s. induction p as [|b p IH]; intros s H; [exists s; auto|]. destruct s as [|c s]; [discriminate|]. cbn [is_prefix] in H.
  apply andb_prop in H as [H1 H2]. apply N.eqb_eq in H1. subst. destruct (IH _ H2) as (r & ->). exists r. auto.
Qed.

Section Main.
Variables (U : unicode) (d : textdoc) (cs : bool) (void : list str) (roots : list node) (l : list token).
Hypothesis HD : textdoc_ok d.
Hypothesis HP : parse U (d_text d) cs void = Ok roots.
Hypothesis HT : doc_tokens U (d_text d) cs = Ok l.
Notation t := (d_text d).
Let HU : Utf8 t := do_utf8 d HD.
Let TL : tiles 0 l (length t) := doc_tiles _ _ _ _ HU HT.

(** ** The tokens scanned *)
Lemma emit_tok_bd sc r : Good t sc -> scan U t true cs sc = Ok r -> tok r <> EOS ->
  tok_bd t (token_of r).
Proof.
  intros G S NE T. assert (L : pos sc < pos r).
  { pose proof (scan_outcome _ _ _ _ HU _ _ S) as O. pose proof (outcome_progress _ _ _ _ _ _ O) as (Q1 & Q2).
    unfold text_token, token_of in T. cbn [tk_type] in T. destruct Q2 as [(? & ?)|[(? & ? & ?)|(? & [Q|Q] & ?)]]; try lia; try congruence;
    destruct T as [T|[T|[T|T]]]; congruence. }
  apply (scan_tok_bd U t cs HU sc); auto. apply scan_emit_all; auto.
Qed.
Lemma emit_runs_bd m : forall sc z, runs U t true cs sc m z -> Good t sc -> Forall (tok_bd t) (map token_of m).
Proof.
  induction m as [|x m IH]; intros sc z R G; [constructor|]. apply runs_inv in R as (S & NE & R).
  cbn [map]. constructor; [eapply emit_tok_bd; eauto|].
  destruct (good_step U t true cs HU _ _ G (scan_outcome _ _ _ _ HU _ _ S)) as [G'|G']; [eapply IH; eauto|].
  destruct m as [|y m]; [constructor|]. apply runs_inv in R as (S' & _).
  rewrite (after_bad_panics U t true cs HU _ G') in S'. discriminate.
Qed.
Lemma token_text_bd sc : tok_bd t (token_of sc) -> text_token (tok sc) -> token_text t sc = Ok (tk_text t (token_of sc)).
Proof.
  intros B T. destruct (B T) as (B1 & B2 & B3). cbn [token_of tk_off tk_end] in *. unfold token_text.
  apply slice_ok. repeat split; auto using Bd_boundary, Bd_le; try lia.
Qed.
Lemma doc_length : length l < scan_fuel t.
Proof.
  assert (Q : forall fuel sc k f, tokens U t true cs fuel sc = Ok (k, f) -> length k < fuel).
  { induction fuel as [|fuel IH]; intros sc k f H; [discriminate|]. cbn [tokens] in H. apply bind_ok in H as (x & _ & H).
    destruct (token_eqb (tok x) EOS); [inv H; cbn; lia|]. apply bind_ok in H as ([k' f'] & H & E). apply IH in H. inv E. cbn. lia. }
  assert (T := HT). unfold doc_tokens in T. apply bind_ok in T as ([k f] & T & E). apply Ok_inj in E. subst k.
  apply Q in T. exact T.
Qed.
(** The token in front of the cursor. *)
Lemma covering o : 0 < o <= length t -> exists l1 k l2, l = l1 ++ k :: l2 /\ tk_off k < o <= tk_end k.
Proof.
  intros L. destruct (cut_at (o - 1) l 0 (length t) TL) as (l1 & k & l2 & E & _ & K); [lia|]. exists l1, k, l2. split; auto. lia.
Qed.
Lemma covering_node o n ps l1 k l2 : find_node_before roots o = Ok (Some (n, ps)) -> l = l1 ++ k :: l2 -> tk_off k < o <= tk_end k ->
  exists pre mid m sc z f, l1 = pre ++ mid /\ runs U t true cs (scanner_new (n_start n) WithinContent) m z /\
    map token_of m = mid /\ scan U t true cs z = Ok sc /\ tok sc <> EOS /\ token_of sc = k /\
    scan U t true cs sc = Ok f /\ (mid = [] -> tk_type k = StartTagOpen /\ tk_off k = n_start n) /\
    (forall op r, mid = op :: r -> tk_type op = StartTagOpen /\ tk_off op = n_start n) /\
    Forall (fun x => tk_end x <= tk_off k) mid.
Proof.
  intros F E K. destruct (found U d cs void roots HD HP o n ps F) as (_ & I & L & _).
  destruct (from_open_eos U t cs void roots HU HP n l I HT) as (pre & op & rest & m & z & E2 & O1 & O2 & O3 & R & M & f & S & NF).
  assert (A := TL). rewrite E in A. apply tiles_app in A as (a & A1 & A2). cbn [tiles] in A2. destruct A2 as (A2 & A3 & A4 & A5).
  assert (X : exists mid, l1 = pre ++ mid /\ mid ++ k :: l2 = op :: rest).
  { assert (Q := E2). rewrite E in Q. destruct (app_split_after _ _ _ _ _ _ Q) as [(q & Q1)|[(Q1 & Q2 & Q3)|(q & Q1)]].
    - exfalso. assert (B := TL). rewrite E2 in B. apply tiles_app in B as (b & B1 & B2). cbn [tiles] in B2.
      assert (J : In k pre) by (rewrite Q1; apply in_or_app; cbn; auto). apply (tiles_bounds _ _ _ _ B1) in J. lia.
    - exists []. rewrite app_nil_r. subst. auto.
    - exists (op :: q). split; auto. rewrite Q1 in Q. rewrite <- app_assoc in Q. apply app_inv_head in Q. exact Q. }
  destruct X as (mid & X1 & X2). rewrite <- X2 in M. apply map_eq_app in M as (m1 & m2 & -> & M1 & M2).
  destruct m2 as [|sc m2]; [discriminate|]. cbn [map] in M2. injection M2 as M2 M3.
  apply runs_app in R as (g & R1 & R2). apply runs_inv in R2 as (S2 & NE2 & R2).
  assert (X : exists f', scan U t true cs sc = Ok f').
  { destruct m2 as [|y m2]; [inversion R2; subst; eauto|]. apply runs_inv in R2 as (S3 & _). eauto. }
  destruct X as (f' & S3).
  exists pre, mid, m1, sc, g, f'. repeat (split; [assumption|]). split; [|split].
  - intros ->. cbn [app] in X2. injection X2 as -> _. auto.
  - intros op' r ->. cbn [app] in X2. injection X2 as -> _. auto.
  - subst l1. apply tiles_app in A1 as (b & B1 & B2). apply Forall_forall. intros x X. apply (tiles_bounds _ _ _ _ B2) in X. lia.
Qed.

(** ** The start tag around the cursor *)
Lemma tag_at_in ks : forall acc, fold_left (tag_upd t) ks acc = match tag_in t ks with Some x => Some x | None => acc end.
Proof.
  induction ks as [|k ks IH]; intros acc; [reflexivity|]. cbn [fold_left tag_in]. rewrite IH.
  destruct (tag_in t ks); auto. unfold tag_upd. destruct (token_eqb (tk_type k) StartTag); auto.
Qed.
Lemma tag_in_app ks q : Forall (fun k => tk_type k <> StartTag) q -> tag_in t (ks ++ q) = tag_in t ks.
Proof.
  intros F. induction ks as [|k ks IH]; cbn [app tag_in]; [|rewrite IH; auto].
  induction F as [|k q N F IH]; auto. cbn [tag_in]. rewrite IH. apply token_eqb_neq in N. rewrite N. reflexivity.
Qed.
Lemma past_name emit a b : scan U t emit cs a = Ok b -> in_tag (st a) = true -> st a <> AfterOpeningStartTag ->
  in_tag (st b) = true -> tok b <> StartTag /\ st b <> AfterOpeningStartTag.
Proof.
  intros S I N J. apply scan_outcome in S; auto. assert (CL : ~ content_like t a).
  { intros [C|[[C _]|[C _]]]; rewrite C in I; discriminate. }
  inversion S; subst; cbn [finish tok st reset set_space set_last_tag set_last_type] in *; try contradiction; try congruence;
    try (split; congruence); try (rewrite H in I; discriminate).
  inversion H0; subst; inversion H1; subst; cbn in *; split; try congruence;
    intros Q; rewrite Q in *; unfold after_close in Q;
    repeat (match type of Q with context [if ?b then _ else _] => destruct b | context [match ?b with _ => _ end] => destruct b end; try discriminate Q).
Qed.
Lemma no_name_after m : forall sc z, runs U t true cs sc m z -> in_tag (st sc) = true -> st sc <> AfterOpeningStartTag ->
  Forall (fun k => in_tag (tk_state k) = true) (map token_of m) -> Forall (fun k => tk_type k <> StartTag) (map token_of m).
Proof.
  induction m as [|x m IH]; intros sc z R I N F; [constructor|]. apply runs_inv in R as (S & NE & R). cbn [map] in *.
  inversion F; subst. cbn [token_of tk_state] in H1. destruct (past_name _ _ _ S I N H1) as [A B]. constructor; auto. eapply IH; eauto.
Qed.

(** [in_tag_of n ks k]: the token [k] is in the start tag of [n], behind the tokens [ks]. *)
Lemma tag_owner l1 k l2 o : l = l1 ++ k :: l2 -> tk_off k < o <= tk_end k -> in_tag (tk_state k) = true ->
  tk_type k <> StartTagOpen -> exists n ps pre op ks q post,
    find_node_before roots o = Ok (Some (n, ps)) /\ In n (doc_nodes roots) /\ l1 = pre ++ op :: ks /\ l2 = q ++ post /\
    tk_type op = StartTagOpen /\ tk_off op = n_start n /\
    Forall (fun k => in_tag (tk_state k) = true) (ks ++ k :: q) /\
    (forall k r, post = k :: r -> in_tag (tk_state k) = false) /\
    n_tag n = tag_in t (ks ++ k :: q) /\
    (forall x, attr_get x (n_attrs n) = attr_in t x (ks ++ k :: q)) /\
    (tk_state k <> AfterOpeningStartTag -> tk_type k <> StartTag -> n_tag n = tag_in t ks) /\
    n_start n < tk_off k /\ (forall m, In m (doc_nodes roots) -> n_start m < o -> n_start m <= n_start n) /\
    (forall s, n_ste n = Some s -> tk_end k < s).
Proof.
  intros E K IK NK. destruct doc_runs with (U := U) (d := d) (cs := cs) (l := l) as (mm & zz & R & M); auto.
  assert (M' := M). rewrite E in M'. apply map_eq_app in M' as (m1 & m2 & -> & M1 & M2).
  destruct m2 as [|b m2]; [discriminate|]. cbn [map] in M2. injection M2 as M2 M3.
  apply runs_app in R as (g & R1 & R2). apply runs_inv in R2 as (S & NE & R2).
  assert (IG : in_tag (st g) = true).
  { destruct (in_tag_step U t cs HU _ _ _ S) as [Q|Q]; auto; [rewrite <- M2 in IK; exact IK|].
    rewrite <- M2 in NK. cbn in NK. congruence. }
  destruct (in_tag_node U d cs void roots l HD HP HT l1 k l2 E) as (n & pre & op & ks & I & E1 & O1 & O2 & F & L & LAST); eauto.
  destruct (C18_attributes U t cs void l roots n HU HT HP I) as (pre' & op' & ks' & post & T & P1 & P2 & K1 & K2 & K3 & _).
  destruct (node_facts _ _ _ _ _ HU HP) as (l' & T' & NF). rewrite HT in T'. apply Ok_inj in T'. subst l'.
  destruct (NF n I). destruct ok_start as (pre2 & op2 & ks2 & post2 & TS & Q1 & Q2 & Q3 & _ & Q5 & Q6 & Q7 & Q8).
  assert (E3 : l = pre ++ op :: ks ++ k :: l2) by (rewrite E, E1, <- app_assoc; reflexivity).
  assert (F' : Forall (fun x => in_tag (tk_state x) = true) ks) by (eapply Forall_impl; [|exact F]; cbn; tauto).
  destruct (open_unique U d cs l HD HT _ _ _ _ _ _ E3 TS O1 Q1) as (<- & <- & QQ); [congruence|].
  pose proof (split_run (fun x => in_tag (tk_state x)) ks k l2 ks2 post2 QQ F' Q3 Q5) as SR. cbn beta in SR. rewrite IK in SR.
  destruct SR as (q & -> & ->).
  destruct (in_tag_end U d cs void roots l HD HP HT n pre op ks k _ I E3 O1 O2 F' IK) as [EN ES].
  destruct (found_last U d cs void roots HD HP o n I) as (ps & FN); [lia| |lia|].
  { intros m Im Lm. apply LAST; auto. lia. }
  exists n, ps, pre, op, ks, q, post2. repeat (split; [assumption || reflexivity|]).
  split; [|split; [exact L|split; [intros m Im Lm; apply LAST; auto; lia|exact ES]]].
  intros N1 N2. rewrite Q6. apply tag_in_app. constructor; auto.
  apply map_eq_app in M3 as (m3 & m4 & -> & M4 & M5). apply runs_app in R2 as (h & R2 & _). rewrite <- M4.
  apply (no_name_after _ _ _ R2).
  - rewrite <- M2 in IK. exact IK.
  - rewrite <- M2 in N1. exact N1.
  - rewrite M4. apply Forall_app in Q3 as [_ Q3]. inversion Q3; subst. auto.
Qed.
Lemma names_in n ks : (forall x, attr_get x (n_attrs n) = attr_in t x ks) -> forall x, In x (attribute_names n) <->
  exists k, In k ks /\ tk_type k = AttributeName /\ tk_text t k = x.
Proof.
  intros H x. rewrite <- (C18_attribute_names t x ks), <- H. unfold attribute_names. clear.
  induction (n_attrs n) as [|[y a] m IH]; cbn [map attr_get fst In]; [intuition congruence|].
  destruct (beq x y) eqn:B.
  - apply beq_eq in B. subst. intuition congruence.
  - rewrite <- IH. intuition. subst. rewrite beq_refl in B. discriminate.
Qed.
Lemma name_not_white k a b : In k l -> tk_type k = AttributeName -> forallb is_ws (sub t a b) = true ->
  tk_text t k <> sub t a b.
Proof.
  intros K T F E. destruct (doc_step U d cs l HT k K) as (u & v & S & _ & <-). pose proof (scan_shape U t true cs HU _ _ S) as SH.
  unfold token_shape in SH. rewrite T in SH. destruct SH as (cl & NE & SC & EN & PC & _). unfold tk_text in E. rewrite <- E, EN in F.
  destruct cl as [|c cl]; [congruence|]. clear - SC PC F. cbn [forallb] in SC, PC. apply andb_prop in SC as [SC _]. apply andb_prop in PC as [PC _].
  unfold encode in F. cbn [flat_map] in F. rewrite forallb_app in F. apply andb_prop in F as [F _].
  destruct (encode1 c) as [|y r] eqn:EC; [apply encode1_nonempty in SC; rewrite EC in SC; cbn in SC; lia|].
  cbn [forallb] in F. apply andb_prop in F as [F _].
  destruct (encode1_ascii c y r SC EC) as [-> _]; [unfold is_ws in F; lia|]. unfold attr_char, is_uspace, is_ws in *. lia.
Qed.

(** ** The loop of do_complete stops at that token *)
Section Request.
Variables (md : bool) (parts : list completion_participant) (providers : list provider) (lang : str)
  (ents : list (str * list N)) (settings : option completion_settings) (order : list (str * str) -> list (str * str)).
Variable p : position.
Let o := offset_at d p.
Notation step := (complete_step U d cs md parts providers lang ents settings order roots p o).
Notation loop := (complete_loop U d cs md parts providers lang ents settings order roots p o).
Notation complete := (do_complete U d cs md parts providers lang ents settings order roots).

Lemma skip_step n ps sc tag attr : tok_bd t (token_of sc) -> tok sc <> EOS -> pos sc < o ->
  step n ps sc tag attr = Ok (None, tag_upd t tag (token_of sc), attr_upd t attr (token_of sc)).
Proof.
  intros B NE L. assert (T := token_text_bd sc B). unfold complete_step, tag_upd, attr_upd. cbn [token_of tk_type] in *.
  assert (E1 : o <=? pos sc = false) by lia. assert (E2 : pos sc =? o = false) by lia. assert (E3 : o <? pos sc = false) by lia.
  destruct (tok sc) eqn:TK; rewrite ?E1, ?E2, ?E3, ?andb_false_r; cbn [token_eqb]; auto.
  - rewrite T by (unfold text_token; auto). reflexivity.
  - rewrite T by (unfold text_token; auto). reflexivity.
Qed.
Lemma loop_skip n ps m : forall sc sc' z fuel tag attr, runs U t true cs sc m z -> scan U t true cs z = Ok sc' ->
  Good t sc -> Forall (fun x => pos x < o /\ tok_off x < o) m -> length m <= fuel ->
  (do x <- scan U t true cs sc; loop n ps fuel x tag attr) =
  loop n ps (fuel - length m) sc' (fold_left (tag_upd t) (map token_of m) tag) (fold_left (attr_upd t) (map token_of m) attr).
Proof.
  induction m as [|x m IH]; intros sc sc' z fuel tag attr R S G F L.
  - inversion R; subst. rewrite S. cbn [bind length map fold_left]. rewrite Nat.sub_0_r. reflexivity.
  - assert (BD := emit_runs_bd _ _ _ R G). apply runs_inv in R as (S1 & NE & R). rewrite S1. cbn [bind].
    cbn [length] in L. destruct fuel as [|fuel]; [lia|].
    cbn [complete_loop]. inversion F; subst. destruct H1 as [P1 P2]. inversion BD; subst.
    apply token_eqb_neq in NE. rewrite NE. replace (tok_off x <? o) with true by lia. cbn [negb andb]. apply token_eqb_neq in NE.
    rewrite skip_step by auto. cbn [bind length map fold_left].
    assert (G' : Good t x \/ m = []).
    { destruct (good_step U t true cs HU _ _ G (scan_outcome _ _ _ _ HU _ _ S1)) as [G'|G']; [auto|].
      destruct m as [|y m]; auto. apply runs_inv in R as (S' & _).
      rewrite (after_bad_panics U t true cs HU _ G') in S'. discriminate. }
    destruct G' as [G'| ->].
    + rewrite (IH _ sc' z) by (auto; lia). reflexivity.
    + inversion R; subst. rewrite S. cbn [bind length map fold_left]. replace (Datatypes.S fuel - 1) with fuel by lia. reflexivity.
Qed.

Definition answer (x : res (option (list item) * option str * str)) : res (list item) :=
  do y <- x; Ok (match fst (fst y) with Some i => i | None => [] end).
Lemma complete_at_next n ps l1 k l2 : find_node_before roots o = Ok (Some (n, ps)) -> l = l1 ++ k :: l2 -> tk_off k < o <= tk_end k ->
  exists pre mid m z sc f, l1 = pre ++ mid /\ runs U t true cs (scanner_new (n_start n) WithinContent) m z /\
    map token_of m = mid /\ scan U t true cs z = Ok sc /\ tok sc <> EOS /\ token_of sc = k /\ scan U t true cs sc = Ok f /\
    (mid = [] -> tk_type k = StartTagOpen /\ tk_off k = n_start n) /\
    (forall op r, mid = op :: r -> tk_type op = StartTagOpen /\ tk_off op = n_start n) /\
    complete p = answer (step n ps sc (tag_at t mid) (attr_at t mid)).
Proof.
  intros F E K. destruct (covering_node _ _ _ _ _ _ F E K) as (pre & mid & m & sc & z & f & X & R & M & S & NE & TK & S2 & N0 & N1 & FM).
  exists pre, mid, m, z, sc, f. repeat (split; [assumption|]).
  unfold do_complete. fold o. rewrite F. cbn [bind].
  assert (LM : length m < length l). { rewrite E, X, <- M, !app_length, map_length. cbn [length]. lia. }
  pose proof doc_length as DL. set (fl := scan_fuel t) in *.
  rewrite (loop_skip n ps m _ sc z fl None []); auto; try lia.
  2:{ right. right. reflexivity. }
  2:{ rewrite <- M in FM. rewrite Forall_map in FM. assert (BT := runs_pos U t true cs). clear - FM K R HU TL. 
      rewrite Forall_forall in *. intros x I. specialize (FM x I). cbn [token_of tk_end] in FM.
      apply in_split in I as (u & v & ->). apply runs_app in R as (g & _ & R). apply runs_inv in R as (S & NE & _).
      apply scan_outcome in S; auto. apply outcome_progress in S as (Q & Q2).
      assert (tok_off x <= pos x) by (destruct Q2 as [(?&?)|[(?&?&?)|(?&?&?&?)]]; lia). lia. }
  rewrite M. fold (tag_at t mid) (attr_at t mid).
  destruct (fl - length m) as [|fu] eqn:FU; [lia|]. cbn [complete_loop].
  apply token_eqb_neq in NE. rewrite NE. apply token_eqb_neq in NE.
  assert (KO : tok_off sc = tk_off k /\ pos sc = tk_end k) by (rewrite <- TK; auto).
  replace (tok_off sc <? o) with true by lia. cbn [negb andb]. unfold answer.
  destruct (step n ps sc (tag_at t mid) (attr_at t mid)) as [[[r tg] at']|e|]; cbn [bind]; auto.
  cbn [fst]. destruct r as [i|]; auto. rewrite S2. cbn [bind]. destruct fu as [|fu]; [lia|]. cbn [complete_loop].
  replace (negb (token_eqb (tok f) EOS) && (tok_off f <? o)) with false; auto.
  apply scan_outcome in S2; auto. apply outcome_progress in S2 as (Q & _). replace (tok_off f <? o) with false by lia. rewrite andb_false_r. auto.
Qed.
Lemma complete_at n ps l1 k l2 : find_node_before roots o = Ok (Some (n, ps)) -> l = l1 ++ k :: l2 -> tk_off k < o <= tk_end k ->
  exists pre mid m z sc, l1 = pre ++ mid /\ runs U t true cs (scanner_new (n_start n) WithinContent) m z /\
    map token_of m = mid /\ scan U t true cs z = Ok sc /\ tok sc <> EOS /\ token_of sc = k /\
    (mid = [] -> tk_type k = StartTagOpen /\ tk_off k = n_start n) /\
    (forall op r, mid = op :: r -> tk_type op = StartTagOpen /\ tk_off op = n_start n) /\
    complete p = answer (step n ps sc (tag_at t mid) (attr_at t mid)).
Proof.
  intros F E K. destruct (complete_at_next _ _ _ _ _ F E K) as (pre & mid & m & z & sc & f & X1 & X2 & X3 & X4 & X5 & X6 & _ & X7).
  exists pre, mid, m, z, sc. repeat (split; [assumption|]). exact X7.
Qed.
Lemma complete_none : find_node_before roots o = Ok None -> complete p = Ok [].
Proof. intros F. unfold do_complete. fold o. rewrite F. reflexivity. Qed.

(** ** Attribute names *)
Notation used := (used providers lang settings).
Definition declared (tag : option str) (x : str) : Prop :=
  exists y q a, tag = Some y /\ In q used /\ In a (pv_attributes q y) /\ a_name a = x.
Lemma attr_items_labels n tag a b items :
  attr_name_items U d cs md providers lang settings order roots o n tag a b = Ok items ->
  (forall m, Permutation (order m) m) -> 
  exists cur, cur = (if b <? a then sub t b a else sub t a b) /\
  (used <> [] -> tag <> None) /\
  (forall x, In x (map ci_label items) <->
    x = data_prefix \/ (declared tag x /\ (~ In x (attribute_names n) \/ x = cur)) \/
    (is_prefix data_prefix x = true /\ (exists m, In m (doc_nodes roots) /\ In x (attribute_names m)) /\
      ~ In x (attribute_names n) /\ x <> cur)) /\
  NoDup (filter (fun x => negb (beq x data_prefix)) (map ci_label items)) /\
  (~ declared tag data_prefix -> NoDup (map ci_label items)).
Proof.
  intros H PO. unfold attr_name_items in H. apply bind_ok in H as (cur & C & H). apply bind_ok in H as (f & _ & H).
  apply bind_ok in H as (pr & P & H). apply Ok_inj in H.
  exists cur. split.
  { destruct (b <? a); apply slice_ok in C; apply C. }
  set (ex := (cur, false) :: map (fun x => (x, true)) (attribute_names n)) in *.
  assert (EX : forall x, assoc x ex = if beq x cur then Some false else if in_dec (list_eq_dec N.eq_dec) x (attribute_names n) then Some true else None).
  { intros x. unfold ex. rewrite assoc_cons, assoc_names. reflexivity. }
  assert (X : (used <> [] -> tag <> None) /\ exists L, pr = new_attrs ex L /\ forall x, In x (map a_name L) <-> declared tag x).
  { destruct used as [|q us] eqn:EU.
    - split; [congruence|]. exists []. apply Ok_inj in P. split; [auto|]. unfold declared. rewrite EU. intros x. cbn. split; [tauto|].
      intros (y & q & a' & _ & [] & _).
    - destruct tag as [y|]; [|discriminate]. split; [discriminate|]. apply Ok_inj in P. eexists. split; [symmetry; exact P|].
      intros x. rewrite in_map_iff. unfold declared. rewrite EU. setoid_rewrite in_flat_map. split.
      + intros (a' & <- & q' & Q & A). exists y, q', a'. auto.
      + intros (y' & q' & a' & E & Q & A & <-). apply Some_inj in E. subst y'. eauto. }
  destruct X as (TN & LL & PR & DL). split; auto.
  destruct pr as [m e]. symmetry in PR. destruct (new_attrs_spec _ _ _ _ PR) as (N1 & N2 & N3). cbn [fst snd] in H.
  destruct (add_data_spec e (flat_map all_attr_names roots) [(data_prefix, data_prefix ++ bs "$1=""$2""")]) as [D1 D2].
  { constructor; [tauto|constructor]. }
  fold (data_attrs roots e) in D1, D2.
  assert (LB : map ci_label items = map a_name m ++ map fst (order (data_attrs roots e))).
  { rewrite <- H, map_app, !map_map. reflexivity. }
  assert (PM : Permutation (map fst (order (data_attrs roots e))) (map fst (data_attrs roots e))) by (apply Permutation_map, PO).
  assert (NE : forall x, assoc x ex <> Some true <-> ~ In x (attribute_names n) \/ x = cur).
  { intros x. rewrite EX. destruct (beq x cur) eqn:B; [apply beq_eq in B; split; [auto|discriminate]|].
    assert (x <> cur) by (intros QQ; rewrite QQ, beq_refl in B; discriminate). destruct (in_dec (list_eq_dec N.eq_dec) x (attribute_names n)); split; try tauto; congruence. }
  assert (NN : forall x, assoc x ex = None <-> ~ In x (attribute_names n) /\ x <> cur).
  { intros x. rewrite EX. destruct (beq x cur) eqn:B; [apply beq_eq in B; split; [discriminate|tauto]|].
    assert (x <> cur) by (intros QQ; rewrite QQ, beq_refl in B; discriminate). destruct (in_dec (list_eq_dec N.eq_dec) x (attribute_names n)); split; try tauto; congruence. }
  assert (MM : forall x, In x (map a_name m) <-> declared tag x /\ (~ In x (attribute_names n) \/ x = cur)).
  { intros x. rewrite N2, DL, NE. tauto. }
  assert (DD : forall x, In x (map fst (data_attrs roots e)) <-> x = data_prefix \/
     (is_prefix data_prefix x = true /\ (exists m, In m (doc_nodes roots) /\ In x (attribute_names m)) /\
      (~ In x (attribute_names n) /\ x <> cur) /\ ~ In x (map a_name m))).
  { intros x. rewrite D2, N3, NN. change (In x (map fst [(data_prefix, data_prefix ++ bs "$1=""$2""")])) with (data_prefix = x \/ False).
    assert (AL : In x (flat_map all_attr_names roots) <-> exists m, In m (doc_nodes roots) /\ In x (attribute_names m)).
    { rewrite in_flat_map. unfold doc_nodes. split.
      - intros (r & R & A). apply all_names_in in A as (z & Z & A). exists z. split; auto. apply in_flat_map. eauto.
      - intros (z & Z & A). apply in_flat_map in Z as (r & R & Z). exists r. split; auto. apply all_names_in. eauto. }
    rewrite AL. split; [intros [[Q|[]]|Q]; auto; tauto|]. intros [Q|Q]; [left; left; auto|tauto]. }
  assert (IN : forall x, In x (map ci_label items) <-> In x (map a_name m) \/ In x (map fst (data_attrs roots e))).
  { intros x. rewrite LB, in_app_iff. split; intros [Q|Q]; auto; right; revert Q; apply Permutation_in; auto using Permutation_sym. }
  split; [|split].
  - intros x. rewrite IN, DD, MM. split; [tauto|]. intros [Q|[Q|(Q1 & Q2 & Q3 & Q4)]]; auto.
    destruct (in_dec (list_eq_dec N.eq_dec) x (map a_name m)) as [J|J]; [apply MM in J; auto|].
    right. right. repeat (split; auto). intros J'. apply J, MM. exact J'.
  - rewrite LB, filter_app. apply NoDup_app_intro.
    + apply NoDup_filter. auto.
    + apply NoDup_filter. eapply Permutation_NoDup; [apply Permutation_sym, PM|]. auto.
    + intros x X Y. apply filter_In in X as [X X']. apply filter_In in Y as [Y _].
      apply (Permutation_in _ PM) in Y. apply DD in Y as [Y|Y]; [|tauto]. subst. rewrite beq_refl in X'. discriminate.
  - intros ND. rewrite LB. apply NoDup_app_intro; auto.
    + eapply Permutation_NoDup; [apply Permutation_sym, PM|]. auto.
    + intros x X Y. apply (Permutation_in _ PM) in Y. apply DD in Y as [Y|Y]; [|tauto]. subst. apply MM in X. tauto.
Qed.

Definition attr_place (k : token) : Prop :=
  tk_type k = AttributeName \/ (tk_type k = Whitespace /\ (tk_state k = WithinTag \/ tk_state k = AfterAttributeName)).
Lemma attr_place_in k : In k l -> attr_place k -> in_tag (tk_state k) = true /\ tk_type k <> StartTagOpen /\
  tk_type k <> StartTag /\ tk_state k <> AfterOpeningStartTag.
Proof.
  intros K [T|[T S]].
  - destruct (doc_step U d cs l HT k K) as (u & v & S & _ & <-). cbn [token_of tk_type tk_state] in *.
    destruct (attr_step U d cs HD _ _ _ S T) as [E _]. rewrite E, T. repeat split; discriminate.
  - rewrite T. destruct S as [S|S]; rewrite S; repeat split; discriminate.
Qed.
(** In a start tag the loop starts at that tag. *)
Lemma complete_in_tag l1 k l2 : l = l1 ++ k :: l2 -> tk_off k < o <= tk_end k -> in_tag (tk_state k) = true ->
  tk_type k <> StartTagOpen -> exists n ps pre op ks q post sc,
    find_node_before roots o = Ok (Some (n, ps)) /\ In n (doc_nodes roots) /\ l1 = pre ++ op :: ks /\ l2 = q ++ post /\
    tk_type op = StartTagOpen /\ tk_off op = n_start n /\
    Forall (fun k => in_tag (tk_state k) = true) (ks ++ k :: q) /\
    (forall k r, post = k :: r -> in_tag (tk_state k) = false) /\
    n_tag n = tag_in t (ks ++ k :: q) /\
    (forall x, attr_get x (n_attrs n) = attr_in t x (ks ++ k :: q)) /\
    (tk_state k <> AfterOpeningStartTag -> tk_type k <> StartTag -> n_tag n = tag_in t ks) /\
    n_start n < tk_off k /\ (forall m, In m (doc_nodes roots) -> n_start m < o -> n_start m <= n_start n) /\
    (forall s, n_ste n = Some s -> tk_end k < s) /\
    token_of sc = k /\ complete p = answer (step n ps sc (tag_in t ks) (attr_at t ks)) /\
    (exists z, runs U t true cs (scanner_new (n_start n) WithinContent) z sc /\ map token_of z = op :: ks ++ [k]).
Proof.
  intros E K IK NK. destruct (tag_owner l1 k l2 o E K IK NK) as (n & ps & pre & op & ks & q & post & F & I & E1 & E2 & O1 & O2 & H).
  destruct (complete_at n ps l1 k l2 F E K) as (pre' & mid & m & z & sc & X & R & M & S & NE & TK & N0 & N1 & C).
  exists n, ps, pre, op, ks, q, post, sc. repeat (split; [assumption|]).
  destruct H as (H1 & H2 & H3 & H4 & H5 & H6 & H7 & H8). repeat (split; [assumption|]).
  destruct mid as [|op' mid]; [destruct (N0 eq_refl); congruence|]. destruct (N1 op' mid eq_refl) as [P1 P2].
  assert (E3 : l = pre ++ op :: ks ++ k :: l2) by (rewrite E, E1, <- app_assoc; reflexivity).
  assert (E4 : l = pre' ++ op' :: mid ++ k :: l2) by (rewrite E, X, <- app_assoc; reflexivity).
  destruct (open_unique U d cs l HD HT _ _ _ _ _ _ E3 E4 O1 P1) as (<- & <- & QQ); [congruence|].
  apply app_inv_tail in QQ. subst mid. split.
  - rewrite C. unfold tag_at, attr_at. cbn [fold_left]. unfold tag_upd at 2, attr_upd at 2. rewrite O1. cbn [token_eqb].
    rewrite tag_at_in. destruct (tag_in t ks); reflexivity.
  - exists (m ++ [sc]). split; [|rewrite map_app, M; cbn [map]; rewrite TK; reflexivity].
    clear - R S NE. induction R as [sc0|sc0 sc1 r f S0 N0 R IH]; cbn [app]; econstructor; eauto. constructor.
Qed.
Lemma names_at l1 k l2 : l = l1 ++ k :: l2 -> tk_off k < o <= tk_end k -> attr_place k ->
  exists n ks, In n (doc_nodes roots) /\ n_start n < tk_off k /\
    (forall m, In m (doc_nodes roots) -> n_start m < o -> n_start m <= n_start n) /\
    (forall s, n_ste n = Some s -> tk_end k < s) /\
    incl ks l /\ (forall x, attr_get x (n_attrs n) = attr_in t x ks) /\ In k ks /\
    complete p = let names := attr_name_items U d cs md providers lang settings order roots o n (n_tag n) in
                 if token_eqb (tk_type k) AttributeName then names (tk_off k) (tk_end k) else names (tk_end k) o.
Proof.
  intros E K A. assert (Ik : In k l) by (rewrite E; apply in_or_app; cbn; auto).
  destruct (attr_place_in k Ik A) as (IK & NK & N1 & N2).
  destruct (complete_in_tag l1 k l2 E K IK NK) as (n & ps & pre & op & ks & q & post & sc & F & I & E1 & E2 & O1 & O2 & _ & _ & _ & AT & TG & L & LAST & ES & TK & C & _).
  exists n, (ks ++ k :: q). repeat (split; [assumption|]). split; [|split; [exact AT|split; [apply in_or_app; cbn; auto|]]].
  { rewrite E, E1, E2. intros x X. apply in_app_iff in X as [X|[X|X]]; apply in_or_app; cbn; auto.
    - left. apply in_or_app. cbn. auto.
    - right. right. apply in_or_app. auto. }
  rewrite C, (TG N2 N1). unfold complete_step. cbn zeta.
  assert (KO : tok sc = tk_type k /\ tok_off sc = tk_off k /\ pos sc = tk_end k /\ st sc = tk_state k) by (rewrite <- TK; auto).
  destruct KO as (K1 & K2 & K3 & K4). rewrite K1, K2, K3, K4.
  assert (L1 : (tk_off k <=? o) = true) by lia. assert (L2 : (o <=? tk_end k) = true) by lia.
  destruct A as [A|[A S]]; rewrite A; cbn [token_eqb].
  - rewrite L1, L2. cbn [andb]. unfold answer. destruct (attr_name_items _ _ _ _ _ _ _ _ _ _ _ _ _ _); reflexivity.
  - rewrite L2. destruct S as [S|S]; rewrite S; unfold answer; destruct (attr_name_items _ _ _ _ _ _ _ _ _ _ _ _ _ _); reflexivity.
Qed.
End Request.
End Main.

(** ** C42: the attribute names proposed *)
(** [proposes]: one of the data providers in use declares the attribute for the tag. *)
Definition proposes (providers : list provider) (lang : str) (settings : option completion_settings)
    (tag : option str) (x : str) : Prop :=
  exists y q a, tag = Some y /\ In q providers /\ pv_applicable q lang = true /\
    (forall s b, settings = Some s -> assoc (pv_id q) (cs_provider s) = Some b -> b = true) /\
    In a (pv_attributes q y) /\ a_name a = x.
(** The cursor, behind at least one byte of the token [k], is where an attribute name is written or
    may be written. *)
Definition at_attribute_name (k : token) (o : nat) : Prop :=
  tk_off k < o <= tk_end k /\
  (tk_type k = AttributeName \/ (tk_type k = Whitespace /\ (tk_state k = WithinTag \/ tk_state k = AfterAttributeName))).
(** [n] is the element in whose start tag the offset is. *)
Definition start_tag_at (roots : list node) (n : node) (o : nat) : Prop :=
  In n (doc_nodes roots) /\ n_start n < o /\
  (forall m, In m (doc_nodes roots) -> n_start m < o -> n_start m <= n_start n) /\
  (forall s, n_ste n = Some s -> o < s).

Theorem C42_attribute_names : forall U d cs void roots l md parts providers lang ents settings order p k items,
  textdoc_ok d -> parse U (d_text d) cs void = Ok roots -> doc_tokens U (d_text d) cs = Ok l ->
  (forall m, Permutation (order m) m) -> In k l -> at_attribute_name k (offset_at d p) ->
  do_complete U d cs md parts providers lang ents settings order roots p = Ok items ->
  exists n, start_tag_at roots n (offset_at d p) /\
  let labels := map ci_label items in
  let written := attribute_names n in
  let current x := tk_type k = AttributeName /\ sub (d_text d) (tk_off k) (tk_end k) = x in
  (forall x, In x labels <->
     x = bs "data-" \/
     (proposes providers lang settings (n_tag n) x /\ (~ In x written \/ current x)) \/
     (is_prefix (bs "data-") x = true /\ ~ In x written /\
        exists m, In m (doc_nodes roots) /\ In x (attribute_names m))) /\
  NoDup (filter (fun x => negb (beq x (bs "data-"))) labels) /\
  (~ proposes providers lang settings (n_tag n) (bs "data-") -> NoDup labels).
Proof.
  intros U d cs void roots l md parts providers lang ents settings order p k items HD HP HT PO Ik [K A] C.
  apply in_split in Ik as (l1 & l2 & E).
  destruct (names_at U d cs void roots l HD HP HT md parts providers lang ents settings order p l1 k l2 E K A)
    as (n & ks & I & L & LAST & ES & INC & AT & KK & C').
  rewrite C in C'. cbn zeta in C'. exists n. split; [repeat split; auto; try lia; intros s Es; specialize (ES s Es); lia|]. cbn zeta.
  assert (DP : forall x, declared providers lang settings (n_tag n) x <-> proposes providers lang settings (n_tag n) x).
  { intros x. unfold declared, proposes, used. split.
    - intros (y & q & a & T & Q & X). apply filter_In in Q as [Q1 Q2]. apply andb_prop in Q2 as [Q2 Q3]. exists y, q, a.
      repeat (split; [assumption|]). split; auto. intros s b -> B. unfold enabled in Q3. rewrite B in Q3. auto.
    - intros (y & q & a & T & Q1 & Q2 & Q3 & X). exists y, q, a. split; auto. split; auto. apply filter_In. split; auto. rewrite Q2.
      unfold enabled. destruct settings as [s|]; auto. destruct (assoc (pv_id q) (cs_provider s)) eqn:B; auto. rewrite (Q3 s b eq_refl B). auto. }
  pose proof (names_in d n ks AT) as NI.
  assert (CASE : exists cur, (forall x, In x (map ci_label items) <->
      x = data_prefix \/ (declared providers lang settings (n_tag n) x /\ (~ In x (attribute_names n) \/ x = cur)) \/
      (is_prefix data_prefix x = true /\ (exists m, In m (doc_nodes roots) /\ In x (attribute_names m)) /\
      ~ In x (attribute_names n) /\ x <> cur)) /\
    NoDup (filter (fun x => negb (beq x data_prefix)) (map ci_label items)) /\
    (~ declared providers lang settings (n_tag n) data_prefix -> NoDup (map ci_label items)) /\
    ((tk_type k = AttributeName /\ sub (d_text d) (tk_off k) (tk_end k) = cur) \/
     (tk_type k <> AttributeName /\ forallb is_ws cur = true))).
  { destruct (token_eqb (tk_type k) AttributeName) eqn:TK.
    - apply token_eqb_eq in TK. symmetry in C'. apply attr_items_labels in C' as (cur & CU & _ & H1 & H2 & H3); auto.
      exists cur. repeat (split; [assumption|]). left. split; auto. rewrite CU. replace (tk_end k <? tk_off k) with false by lia. auto.
    - apply token_eqb_neq in TK. symmetry in C'. apply attr_items_labels in C' as (cur & CU & _ & H1 & H2 & H3); auto.
      exists cur. repeat (split; [assumption|]). right. split; auto. destruct A as [A|[A _]]; [congruence|].
      assert (X : In k l) by (rewrite E; apply in_or_app; cbn; auto).
      destruct (doc_step U d cs l HT k X) as (u & v & S & _ & V). pose proof (scan_shape U _ true cs (do_utf8 d HD) _ _ S) as SH.
      unfold token_shape in SH. rewrite V, A in SH. destruct SH as (_ & W & _).
      assert (W' : forallb is_ws (sub (d_text d) (offset_at d p) (tk_end k)) = true).
      { rewrite (sub_split (d_text d) (tk_off k) (offset_at d p) (tk_end k)) in W by lia. rewrite forallb_app in W. apply andb_prop in W. tauto. }
      rewrite CU. destruct (offset_at d p <? tk_end k) eqn:Q; auto.
      unfold sub. replace (offset_at d p - tk_end k) with 0 by lia. reflexivity. }
  destruct CASE as (cur & H1 & H2 & H3 & CC). split; [|split; [exact H2|rewrite <- DP; exact H3]].
  intros x. rewrite H1, <- DP. change (bs "data-") with data_prefix.
  destruct CC as [[T <-]|[T W]].
  - assert (J : In (sub (d_text d) (tk_off k) (tk_end k)) (attribute_names n)) by (apply NI; exists k; auto).
    split.
    + intros [Q|[(Q1 & [Q2|Q2])|(Q1 & Q2 & Q3 & _)]]; auto. right. left. split; auto.
    + intros [Q|[(Q1 & [Q2|[_ Q2]])|(Q1 & Q2 & Q3)]]; auto. right. right. repeat (split; auto). intros ->. auto.
  - assert (NW : forall x, x = cur -> ~ In x (attribute_names n) /\ is_prefix data_prefix x = false).
    { intros y ->. split.
      - intros J. apply NI in J as (k' & K1 & K2 & K3). 
        assert (exists a b, cur = sub (d_text d) a b) as (a & b & ->).
        { exists (tk_off k'), (tk_end k'). auto. }
        eapply (name_not_white U d cs l HD HT k' a b); eauto.
      - destruct (is_prefix data_prefix cur) eqn:Q; auto. apply is_prefix_head in Q as (r & ->). discriminate. }
    split.
    + intros [Q|[(Q1 & [Q2|Q2])|(Q1 & Q2 & Q3 & _)]]; auto. right. left. split; auto. left. apply NW. auto.
    + intros [Q|[(Q1 & [Q2|[Q2 _]])|(Q1 & Q2 & Q3)]]; auto; [congruence|]. right. right. repeat (split; auto).
      intros Q. apply NW in Q as [_ Q]. congruence.
Qed.
Print Assumptions C42_attribute_names.

(** ** Demonstrations *)
Definition demo_attr (x : str) (set : option str) : attr_data := mkAttr x None set None None.
Definition demo_provider : provider := html_provider demo_unicode (bs "demo")
  (mkData (Some [mkTag (bs "p") None [demo_attr (bs "align") None; demo_attr (bs "hidden") (Some (bs "v"))] None None])
          (Some [demo_attr (bs "class") None; demo_attr (bs "id") None; demo_attr (bs "align") None]) None) false.
Definition labels_at (s : str) (o : nat) : res (list str) :=
  let d := utf16_doc s in
  do roots <- parse demo_unicode s false html5_void;
  do l <- do_complete demo_unicode d false true [] [demo_provider] (bs "html") entities None (fun m => m) roots (position_at d o);
  Ok (map ci_label l).
Definition c42_doc : str := bs "<div data-x=1><p class=a data-y ></p></div>".
Example C42_demo :
  labels_at c42_doc 19 = Ok [bs "align"; bs "hidden"; bs "class"; bs "id"; bs "data-x"; bs "data-"] /\
  labels_at c42_doc 32 = Ok [bs "align"; bs "hidden"; bs "id"; bs "data-x"; bs "data-"] /\
  labels_at c42_doc 9 = Ok [bs "class"; bs "id"; bs "align"; bs "data-y"; bs "data-"].
Proof. vm_compute. repeat split. Qed.
(** The hypotheses of [C42_attribute_names] hold at offset 19. *)
Example C42_hypotheses : textdoc_ok (utf16_doc c42_doc) /\
  (do l <- doc_tokens demo_unicode c42_doc false;
   Ok (existsb (fun k => (tk_off k <? 19) && (19 <=? tk_end k) && token_eqb (tk_type k) AttributeName) l)) = Ok true.
Proof. split; [apply C27_contract; exists (decode c42_doc); vm_compute; auto|vm_compute; reflexivity]. Qed.

(** ** Findings *)
(** "data-" is proposed even where the element has an attribute of that name. *)
Theorem C42_data_refuted : labels_at (bs "<p data-=1 >") 11 =
  Ok [bs "align"; bs "hidden"; bs "class"; bs "id"; bs "data-"].
Proof. vm_compute. reflexivity. Qed.
