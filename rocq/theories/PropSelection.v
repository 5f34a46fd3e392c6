(** * Selection ranges nest and contain the cursor (C36) *)
From Verif Require Import Base BaseFacts Stream Scanner ScannerFacts ScanStep ScanProps ScanShape ScanResume ScanPanic Tree
  Parser ParseSpec ParseInv ParseOrder PropParse TreeFacts PropTree TextDoc PropDoc PropTags SelectionRange ScanComplete
  ScanLocal SelAttr.
From Coq Require Import ZifyBool ZifyNat ZifyN.

Section S.
Variables (U : unicode) (d : textdoc) (cs : bool) (void : list str) (roots : list node).
Hypothesis HD : textdoc_ok d.
Hypothesis HP : parse U (d_text d) cs void = Ok roots.
Notation t := (d_text d).
Let HU : Utf8 t := do_utf8 d HD.

(** ** The attribute ranges *)
Definition open_token (k : token) : Prop := tk_type k = StartTagOpen ->
  tk_end k = tk_off k + 1 /\ tk_state k = AfterOpeningStartTag /\ nth_error t (tk_off k) = Some LT /\
  is_prefix (bs "<!--") (skipn (tk_off k) t) = false /\ nth_error t (tk_off k + 1) <> Some SLASH /\
  m_doctype (skipn (tk_off k + 1) t) = None.
Lemma scan_open sc sc' : scan U t true cs sc = Ok sc' -> open_token (token_of sc').
Proof.
  intros S T. apply scan_outcome in S; auto. unfold token_of in *. cbn [tk_type tk_off tk_end tk_state] in *.
  inversion S; subst; cbn [finish tok tok_off pos st] in *; try discriminate; auto 10.
  match goal with T' : tag_outcome _ _ _ _ ?a _ |- _ => inversion T'; subst; discriminate end.
Qed.

Lemma doctype_app s w : m_doctype (s ++ w) = None -> m_doctype s = None.
Proof.
  intros H. destruct (m_doctype s) as [[a b]|] eqn:E; auto. exfalso.
  pose proof (m_doctype_some _ _ _ E) as (_ & _ & L & _). destruct s as [|c r]; [discriminate|].
  cbn [length] in L. cbn [app] in H. unfold m_doctype in *. rewrite firstn_app in H.
  replace (7 - length r) with 0 in H by lia. cbn [firstn] in H. rewrite app_nil_r in H.
  destruct (_ && _)%bool; discriminate.
Qed.
Lemma local_doctype b p : m_doctype (skipn (p + 1) t) = None -> m_doctype (skipn 1 (sub t p b)) = None.
Proof.
  intros H. unfold sub. rewrite skipn_firstn_comm, skipn_skipn.
  replace (1 + p) with (p + 1) by lia. eapply doctype_app. rewrite firstn_skipn. auto.
Qed.

Definition closed_by (q s : nat) : Prop :=
  exists l k, doc_tokens U t cs = Ok l /\ In k l /\ tk_off k = q /\ tk_end k = s /\
    (tk_type k = StartTagClose /\ q + 1 = s /\ sub t q s = bs ">" \/
     tk_type k = StartTagSelfClose /\ q + 2 = s /\ sub t q s = bs "/>").

Lemma Bd_lift a b p : Bd t a -> Bd t b -> a <= b -> Bd (sub t a b) p -> Bd t (a + p).
Proof.
  intros A B L P. pose proof (Bd_le _ _ P) as LP. pose proof (Bd_le _ _ B) as LB. rewrite sub_length in LP by auto.
  destruct (Nat.eq_dec p 0) as [-> |N0]; [rewrite Nat.add_0_r; auto|].
  destruct (Nat.eq_dec p (b - a)) as [-> |N1]; [replace (a + (b - a)) with b by lia; auto|].
  apply Bd_boundary in P. apply boundary_Bd; auto; [lia|]. unfold is_boundary in *.
  rewrite sub_length in P by auto. rewrite (proj2 (Nat.eqb_neq _ _) N0), (proj2 (Nat.eqb_neq _ _) N1) in P.
  rewrite sub_nth_error in P by lia. cbn [orb] in P. rewrite P. apply orb_true_r.
Qed.
Lemma shift_good a b o q l : Bd t a -> Bd t b -> a <= b -> good_list (sub t a b) o 1 q l ->
  good_list t (a + o) (a + 1) (a + q) (map (fun p => (fst p + a, snd p + a)) l).
Proof.
  intros A B L [G1 G2 G3 G4]. split.
  - clear -G1. induction l as [|x [|y l] IH]; cbn in *; auto. destruct G1 as [G0 G1].
    split; [unfold incl_r in *; cbn; lia|apply IH; auto].
  - apply Forall_map. eapply Forall_impl; [|exact G2]. cbn. lia.
  - apply Forall_map. eapply Forall_impl; [|exact G3]. cbn. lia.
  - apply Forall_map. eapply Forall_impl; [|exact G4]. cbn. intros u [U1 U2].
    rewrite !(Nat.add_comm _ a). split; apply (Bd_lift a b); auto.
Qed.

(** The ranges an attribute name or value gives when the cursor [o] touches it. *)
Definition at_token (o : nat) (k : token) (w : nat * nat) : Prop :=
  tk_off k <= o <= tk_end k /\
  ((tk_type k = AttributeName \/ tk_type k = AttributeValue) /\ w = (tk_off k, tk_end k) \/
   tk_type k = AttributeValue /\ quoted (tk_text t k) /\ tk_off k + 1 <= o <= tk_end k - 1 /\
   w = (tk_off k + 1, tk_end k - 1)).
Definition in_start_tag (n : node) (k : token) : Prop :=
  exists l s, doc_tokens U t cs = Ok l /\ In k l /\ n_ste n = Some s /\ n_start n < tk_off k /\ tk_end k < s.

Lemma attr_ranges n s o al : In n (doc_nodes roots) -> n_ste n = Some s -> n_start n <= o < s ->
  get_attribute_level_ranges U d n o cs = Ok al ->
  exists q, closed_by q s /\ n_start n + 1 <= q /\ good_list t o (n_start n + 1) q al /\
    forall k w, in_start_tag n k -> at_token o k w -> In w al.
Proof.
  intros I ST OB G. destruct (node_facts _ _ _ _ _ HU HP) as (l & T & F). destruct (F n I).
  destruct (node_bd U d cs void roots HD HP n I) as [BA BB].
  destruct (C12_spans _ _ _ _ _ HU HP) as (_ & SP). rewrite Forall_forall in SP.
  assert (TD := T).
  unfold doc_tokens in T. apply bind_ok in T as ([l' f] & T & E). apply Ok_inj in E. subst l'.
  destruct ok_start as (pre & op & ks & post & TS & O1 & O2 & K1 & _ & K2 & _ & _ & S0).
  rewrite ST in S0. unfold ste_of in S0. destruct post as [|k post]; [discriminate|].
  destruct (token_eqb (tk_type k) StartTagSelfClose || _) eqn:Q in S0; [|discriminate]. apply Some_inj in S0.

  assert (SH : Forall (token_shape U t true) l) by (revert T; apply tokens_forall; intros u v; apply scan_shape; auto).
  assert (OPN : Forall open_token l) by (revert T; apply tokens_forall; intros u v; apply scan_open).
  rewrite Forall_forall in SH, OPN.
  assert (Iop : In op l) by (subst l; apply in_or_app; cbn; auto).
  assert (Ik : In k l) by (subst l; apply in_or_app; cbn; right; right; apply in_or_app; cbn; auto).
  destruct (OPN _ Iop O1) as (P1 & P2 & P3 & P4 & P5 & P6). rewrite O2 in *.
  assert (TYK : tk_type k = StartTagSelfClose \/ tk_type k = StartTagClose /\ tk_off k < tk_end k).
  { apply orb_true_iff in Q as [Q|Q]; [left; apply token_eqb_eq; auto|right].
    apply andb_true_iff in Q as [Q1 Q2]. split; [apply token_eqb_eq; auto|lia]. }
  assert (TLk : tk_off k <= tk_end k <= length t).
  { pose proof (tiles_bounds _ _ _ _ (doc_tiles _ _ _ _ HU TD) Ik). lia. }
  assert (CB : closed_by (tk_off k) s /\ tk_off k < tk_end k).
  { specialize (SH _ Ik). unfold token_shape in SH. cbv zeta in SH. unfold closed_by. subst s.
    destruct TYK as [TY|[TY TL]]; rewrite TY in SH.
    - pose proof (f_equal (@length N) SH) as L. rewrite sub_length in L by lia. change (length (bs "/>")) with 2 in L.
      split; [|lia]. exists l, k. repeat (split; [auto; fail|]). right. split; [auto|]. split; [lia|auto].
    - destruct SH as [SH|(_ & SH & _)]; [|lia].
      pose proof (f_equal (@length N) SH) as L. rewrite sub_length in L by lia. change (length (bs ">")) with 1 in L.
      split; [|lia]. exists l, k. repeat (split; [auto; fail|]). left. split; [auto|]. split; [lia|auto]. }
  destruct CB as [CB LK]. exists (tk_off k). split; auto.
  rewrite TS in T. apply tokens_split in T as (fuel' & z & _ & Z1 & T).
  set (y1 := finish (scanner_new 0 WithinContent) 0 StartTagOpen None 1 AfterOpeningStartTag).
  assert (Z2 : st z = AfterOpeningStartTag /\ pos z = n_start n + 1).
  { rewrite <- P2, <- P1. subst op. auto. }
  assert (SM : sim t z (sh (n_start n) y1)).
  { destruct Z2 as [Z2 Z3]. split; [exact Z2|]. split; [exact Z3|]. rewrite Z2. discriminate. }
  eapply sim_tokens in T as (f' & T & _); eauto.
  replace (ks ++ k :: post) with ((ks ++ [k]) ++ post) in T by (rewrite <- app_assoc; auto).
  apply tokens_runs in T as (m & z' & fuel2 & R & M & _).
  destruct (exists_last (l := m)) as (m1 & c & ->).
  { intros ->. destruct ks; discriminate. }
  rewrite map_app in M. cbn [map] in M. apply app_inj_tail in M as [M1 M2].
  pose proof (SP _ I) as SPn. unfold span_ok in SPn. rewrite ST in SPn.
  assert (SE : s <= n_end n) by (destruct (n_ets n); lia).
  assert (CK : tok c = tk_type k /\ tok_off c = tk_off k /\ pos c = tk_end k /\ st c = tk_state k) by (rewrite <- M2; auto).
  destruct CK as (C1 & C2 & C3 & C4).
  destruct (local_runs U t cs (n_start n) (n_end n) BA BB ltac:(lia) m1 y1 c z') as (m' & c' & R' & EC & EM).
  { reflexivity. } { exact R. }
  { rewrite Forall_forall in K1 |- *. intros w W. apply (K1 (token_of w)). rewrite <- M1. apply in_map. auto. }
  { rewrite C4. eapply K2. eauto. } { lia. } { lia. }
  set (x := sub t (n_start n) (n_end n)) in *.
  assert (HX : Utf8 x) by (apply HUx; auto; lia).
  assert (LX : length x = n_end n - n_start n) by (apply len_x; auto; lia).
  assert (S1 : scan U x false cs (scanner_new 0 WithinContent) = Ok y1).
  { apply outcome_scan; auto; [|left; apply Bd_0; auto|discriminate].
    apply O_start_tag_open; cbn [pos st scanner_new]; try (left; reflexivity).
    - rewrite <- P3. replace (n_start n) with (n_start n + 0) by lia. apply nth_x; lia.
    - apply no_prefix_x with (a := n_start n) (b := n_end n); auto; try lia; [discriminate|].
      rewrite Nat.add_0_r. auto.
    - intros W. apply nth_x_some in W; auto; lia.
    - apply local_doctype. auto. }
  unfold get_attribute_level_ranges in G. apply bind_ok in G as (x' & X & G).
  assert (x' = x).
  { unfold get_content in X. cbn [r_start r_end range_at] in X. rewrite !(do_inv _ HD) in X; auto using Bd_boundary, Bd_le.
    apply slice_ok in X. apply X. }
  subst x'. apply bind_ok in G as (rel & RL & G). unfold usub in RL.
  destruct (n_start n <=? o) eqn:EO; [|discriminate]. apply Ok_inj in RL.
  apply bind_ok in G as (r & G & E). apply Ok_inj in E.
  destruct (scan_fuel x) as [|fl]; [discriminate|]. cbn [attr_loop] in G. rewrite S1 in G. cbn [bind] in G.
  change (token_eqb (tok y1) EOS) with false in G. cbv iota in G.
  apply bind_ok in G as (s1 & A1 & G). rewrite attr_step_other in A1 by discriminate. apply Ok_inj in A1. subst s1.
  pose proof (f_equal pos EC) as EC1. pose proof (f_equal tok_off EC) as EC2. pose proof (f_equal tok EC) as EC3.
  cbn [sh pos tok_off tok] in EC1, EC2, EC3.
  assert (G' := G). apply (attr_loop_tag U x cs rel HX m') with (c := c') in G; auto.
  - assert (1 <= tok_off c').
    { apply runs_app in R' as (g & G1 & G2). apply runs_pos in G1; auto. apply runs_inv in G2 as (G2 & _ & _).
      apply scan_outcome in G2; auto. apply outcome_progress in G2 as (G2 & _). cbn in G1. lia. }
    split; [lia|]. split.
    { replace o with (n_start n + rel) by lia. rewrite <- C2, EC2, <- E.
      apply shift_good with (b := n_end n); auto. lia. }
    intros k' w (l' & s' & T' & I' & ST' & J1 & J2) W. rewrite T' in TD. apply Ok_inj in TD. subst l'.
    rewrite ST in ST'. apply Some_inj in ST'. subst s'.
    assert (IK : In k' ks).
    { pose proof (doc_tiles _ _ _ _ HU T') as TL. rewrite TS in TL, I'.
      apply tiles_app in TL as (u & TL1 & TL2). cbn [tiles] in TL2. destruct TL2 as (L1 & L2 & _ & TL2).
      apply tiles_app in TL2 as (v & TL2 & TL3). cbn [tiles] in TL3. destruct TL3 as (L3 & L4 & _ & TL3).
      apply in_app_iff in I' as [I'|[<-|I']]; [apply (tiles_bounds _ _ _ _ TL1) in I'; lia|lia|].
      apply in_app_iff in I' as [I'|[<-|I']]; [auto|lia|apply (tiles_bounds _ _ _ _ TL3) in I'; lia]. }
    rewrite <- M1, EM, map_map in IK. apply in_map_iff in IK as (y0 & Y1 & Y2).
    apply in_split in Y2 as (ma & mb & ->). rewrite <- app_assoc in R'. cbn [app] in R'.
    assert (W' : wanted x rel y0 (fst w - n_start n, snd w - n_start n) /\ n_start n <= fst w /\ n_start n <= snd w).
    { destruct W as (W1 & W2). rewrite <- Y1 in *. unfold token_of, tk_text in *. cbn [tk_off tk_end tk_type sh pos tok_off tok] in *.
      assert (YL : pos y0 <= n_end n - n_start n) by lia.
      split; [split; [lia|]|destruct W2 as [[_ ->]|(_ & _ & _ & ->)]; cbn [fst snd]; lia].
      destruct W2 as [[W2 ->]|(W2 & W3 & W4 & ->)]; cbn [fst snd]; [left|right].
      - split; auto. f_equal; lia.
      - split; auto. split; [|split; [lia|f_equal; lia]]. unfold x. rewrite sub_sub by lia. auto. }
    destruct W' as [W' [F1 F2]]. eapply attr_loop_has in W'; eauto.
    + rewrite <- E. apply in_map_iff. eexists. split; [|exact W']. destruct w. cbn in *. f_equal; lia.
    + intros [Q0|Q0]; discriminate.
  - apply I_none; cbn; auto. discriminate.
  - rewrite <- EC3, C1. destruct TYK as [-> |[-> _]]; auto.
  - lia.
Qed.

(** ** Lists of offsets *)
Lemma incl_trans a b c : incl_r a b -> incl_r b c -> incl_r a c.
Proof. unfold incl_r. lia. Qed.
Lemma nest_app l1 l2 : nest l1 -> nest l2 -> (forall a b, In a l1 -> In b l2 -> incl_r a b) -> nest (l1 ++ l2).
Proof.
  intros H1 H2 H. induction l1 as [|a l1 IH]; auto. cbn [app].
  destruct l1 as [|b l1]; cbn [app] in *.
  - destruct l2 as [|c l2]; cbn; auto. split; [|exact H2]. apply H; cbn; auto.
  - destruct H1 as [H0 H1]. split; auto. apply IH; auto. intros u v I1 I2. apply H; auto. right. auto.
Qed.
Lemma nest_cons a l : nest l -> (forall b, In b l -> incl_r a b) -> nest (a :: l).
Proof.
  intros H1 H2. apply (nest_app [a] l); cbn; auto. intros u v [<-|[]]; auto.
Qed.

Definition on_bd (r : nat * nat) : Prop := Bd t (fst r) /\ Bd t (snd r).
Definition spans (n : node) (r : nat * nat) : Prop := fst r <= n_start n /\ n_end n <= snd r.

Lemma start_tag_end n s : In n (doc_nodes roots) -> n_ste n = Some s ->
  Bd t s /\ (forall e, n_ets n = Some e -> Bd t e /\ is_prefix (bs "</") (skipn e t) = true).
Proof.
  intros I ST. destruct (node_facts _ _ _ _ _ HU HP) as (l & T & F). destruct (F n I).
  split.
  - assert (E : exists k, In k l /\ (tk_type k = StartTagSelfClose \/ tk_type k = StartTagClose /\ tk_off k < tk_end k) /\ tk_end k = s).
    { destruct ok_start as (pre & op & ks & post & -> & _ & _ & _ & _ & _ & _ & _ & S0). rewrite ST in S0.
      unfold ste_of in S0. destruct post as [|k post]; [discriminate|].
      destruct (token_eqb (tk_type k) StartTagSelfClose || _) eqn:Q in S0; [|discriminate]. apply Some_inj in S0.
      exists k. split; [apply in_or_app; cbn; right; right; apply in_or_app; cbn; auto|]. split; [|auto].
      apply orb_true_iff in Q as [Q|Q]; [left; apply token_eqb_eq; auto|right].
      apply andb_true_iff in Q as [Q1 Q2]. split; [apply token_eqb_eq; auto|lia]. }
    destruct E as (k & K1 & K2 & <-).
    pose proof (tiles_bounds _ _ _ _ (doc_tiles _ _ _ _ HU T) K1) as TB.
    assert (SH : token_shape U t true k).
    { unfold doc_tokens in T. apply bind_ok in T as ([l' f] & T & E). apply Ok_inj in E. subst l'.
      assert (G : Forall (token_shape U t true) l) by (revert T; apply tokens_forall; intros a b; apply scan_shape; auto).
      rewrite Forall_forall in G. auto. }
    unfold token_shape in SH. cbv zeta in SH. destruct K2 as [E|[E L]]; rewrite E in SH.
    + eapply (sub_last_ascii d HD _ _ [SLASH] GT SH); [reflexivity|lia|lia].
    + destruct SH as [SH|(_ & Q & _)]; [|lia]. eapply (sub_last_ascii d HD _ _ [] GT SH); [reflexivity|lia|lia].
  - intros e E. destruct ok_close; try congruence. rewrite E in *. apply Some_inj in H0. subst.
    assert (is_prefix (bs "</") (skipn e0 t) = true) by apply H6. split; auto. eapply prefix_bd; eauto.
Qed.

Lemma node_ranges n : In n (doc_nodes roots) ->
  nest (get_node_ranges n) /\ Forall on_bd (get_node_ranges n) /\
  (forall r, In r (get_node_ranges n) -> incl_r r (n_start n, n_end n)) /\
  (forall c r, In c (n_children n) -> In r (get_node_ranges n) -> spans c r).
Proof.
  intros I. destruct (C12_spans _ _ _ _ _ HU HP) as (_ & SP). rewrite Forall_forall in SP.
  pose proof (SP _ I) as S. unfold span_ok in S. unfold get_node_ranges, incl_r, spans.
  destruct (node_bd U d cs void roots HD HP n I) as [B1 B2].
  destruct (n_ste n) as [s|] eqn:ST.
  - destruct (start_tag_end n s I ST) as [B3 B4]. destruct (n_ets n) as [e|].
    + destruct (B4 e eq_refl) as [B5 _]. destruct S as (S1 & S2 & S3 & S4 & S5 & S6).
      destruct (s <? e) eqn:L.
      * split; [cbn; split; auto; unfold incl_r; cbn; lia|]. split; [repeat constructor; auto|].
        split; [intros r [<-|[<-|[]]]; cbn; lia|].
        intros c r C [<-|[<-|[]]]; cbn; apply (chain_bounds _ _ _ _ S6) in C; lia.
      * split; [exact Logic.I|]. split; [repeat constructor; auto|]. split; [intros r [<-|[]]; cbn; lia|].
        intros c r C [<-|[]]; cbn; apply (chain_bounds _ _ _ _ S6) in C; lia.
    + destruct S as (S1 & S2 & S3 & S4 & S5).
      split; [exact Logic.I|]. split; [repeat constructor; auto|]. split; [intros r [<-|[]]; cbn; lia|].
      intros c r C [<-|[]]; cbn; apply (chain_bounds _ _ _ _ S5) in C; lia.
  - assert (n_children n = []) as -> by (destruct (n_ets n); tauto).
    split; [exact Logic.I|]. split; [repeat constructor; auto|]. split; [intros r [<-|[]]; cbn; lia|]. intros c r [].
Qed.

Lemma parent_ranges l ps n : path l ps n -> (forall x, In x (flat_map preorder l) -> In x (doc_nodes roots)) ->
  forall tl, nest tl -> Forall on_bd tl -> (forall x r, In x l -> In r tl -> spans x r) ->
  let R := flat_map get_node_ranges (rev ps) ++ tl in
  nest R /\ Forall on_bd R /\ (forall r, In r R -> spans n r).
Proof.
  induction 1 as [l n I|l x ps n I P IH]; intros SUB tl N B S.
  - cbn [rev flat_map app]. split; [auto|]. split; auto.
  - cbn zeta. cbn [rev]. rewrite flat_map_app. cbn [flat_map]. rewrite app_nil_r, <- app_assoc.
    assert (X : In x (doc_nodes roots)).
    { apply SUB. apply in_flat_map. exists x. split; auto. destruct x; cbn; auto. }
    destruct (node_ranges x X) as (A1 & A2 & A3 & A4). apply IH.
    + intros y Y. apply SUB. apply in_flat_map. exists x. split; auto. destruct x; cbn in *; auto.
    + apply nest_app; auto. intros a b Ia Ib. specialize (S x b I Ib). specialize (A3 _ Ia).
      unfold incl_r, spans in *. cbn in *. lia.
    + apply Forall_app. auto.
    + intros c r C R. apply in_app_iff in R as [R|R]; [apply A4; auto|].
      specialize (S x r I R). specialize (A4 c (n_start x, n_end x) C).
      assert (Q : spans c (n_start x, n_end x)).
      { apply A4. unfold get_node_ranges. destruct (n_ste x) as [u|], (n_ets x) as [v|]; try (left; reflexivity).
        destruct (u <? v); [right|]; left; reflexivity. }
      unfold spans in *. cbn in *. lia.
Qed.
Lemma chain_last z l : forall a b r, ParseSpec.chain a l b -> In r l -> n_end r <= n_end (last l z).
Proof.
  induction l as [|x l IH]; intros a b r C I; [destruct I|].
  destruct C as (C1 & C2 & C3). destruct l as [|y l].
  - destruct I as [<-|[]]. cbn. lia.
  - change (last (x :: y :: l) z) with (last (y :: l) z). destruct I as [<-|I]; [|eapply IH; eauto].
    assert (n_end y <= n_end (last (y :: l) z)) by (eapply IH; [exact C3|cbn; auto]).
    destruct C3 as (C3 & C4 & _). lia.
Qed.
Lemma last_in {A} (l : list A) z : l <> [] -> In (last l z) l.
Proof.
  induction l as [|x l IH]; [congruence|]. intros _. destruct l as [|y l]; [left; auto|].
  right. apply IH. discriminate.
Qed.
Lemma root_in n : In n roots -> In n (doc_nodes roots).
Proof. intros I. apply in_flat_map. exists n. split; auto. destruct n; cbn; auto. Qed.

Lemma all_parents ps n : path roots ps n ->
  let R := get_all_parent_tag_ranges ps roots in
  nest R /\ Forall on_bd R /\ (forall r, In r R -> spans n r).
Proof.
  intros P. destruct (C12_spans _ _ _ _ _ HU HP) as (C & _). unfold get_all_parent_tag_ranges.
  assert (NE : roots <> []) by (intros E; rewrite E in P; inversion P; subst; contradiction).
  destruct roots as [|r0 rs] eqn:E; [congruence|]. rewrite <- E in *.
  apply parent_ranges with (l := roots); auto.
  - exact Logic.I.
  - constructor; [|constructor]. split; cbn.
    + eapply node_bd; eauto. apply root_in. rewrite E. left. auto.
    + eapply node_bd; eauto. apply root_in. apply last_in. auto.
  - intros x r I [<-|[]]. split; cbn.
    + rewrite E in C, I. destruct I as [<-|I]; auto. destruct C as (C1 & C2 & C3).
      apply (chain_bounds _ _ _ _ C3) in I. lia.
    + eapply chain_last; eauto.
Qed.

(** ** The ranges at a cursor *)
(** The element at [o] is not one whose start tag is closed by '>' alone after an
    unquoted value ending in '/', and its end tag, when the cursor is in it, does
    not end inside a character. *)
Definition plain_tags (o : nat) : Prop := forall n, innermost roots o n ->
  (n_ste n = Some (n_end n) -> sub t (n_end n - 2) (n_end n) = bs "/>" ->
     exists l, doc_tokens U t cs = Ok l /\ start_tag_ends_with l n StartTagSelfClose) /\
  (forall e, n_ets n = Some e -> e + 2 <= o -> is_boundary t (n_end n - 1) = true).
(** The cursor is in the part of the document the ranges speak about: for an
    element that is a start tag only, after its '<' and not between '/' and '>';
    when it is in no element, between the first and the last one. *)
Definition cursor_covered (o : nat) : Prop :=
  (forall n, innermost roots o n -> n_ste n = Some (n_end n) ->
     n_start n < o /\ (sub t (n_end n - 2) (n_end n) = bs "/>" -> o + 1 <> n_end n)) /\
  ((forall n, ~ innermost roots o n) -> forall n rest, roots = n :: rest ->
     n_start n <= o /\ o <= n_end (last roots n)).

Record applicable (o : nat) (l : list (nat * nat)) : Prop := {
  ap_nest : nest l;
  ap_bd : Forall on_bd l;
  ap_proper : Forall (fun r => fst r <= snd r) l;
  ap_in : cursor_covered o -> Forall (fun r => fst r <= o /\ o <= snd r) l;
  ap_ne : roots <> [] -> l <> []
}.

Lemma applicable_ranges p l : plain_tags (offset_at d p) ->
  get_applicable_ranges U d p roots cs = Ok l -> applicable (offset_at d p) l.
Proof.
  intros PT H. unfold get_applicable_ranges in H. set (o := offset_at d p) in *.
  apply bind_ok in H as (r & F & H).
  destruct (C12_spans _ _ _ _ _ HU HP) as (C & SP). rewrite Forall_forall in SP.
  destruct (C23_find_node_at _ _ _ _ _ o HU HP) as (r' & F' & SPEC). rewrite F in F'. apply Ok_inj in F'. subst r'.
  destruct (find_at_innermost U t cs void roots o HU HP) as [[F1 NO]|(n' & ps' & F1 & IN & _)];
    rewrite F in F1; apply Ok_inj in F1.
  - subst r. apply Ok_inj in H. subst l. unfold get_all_parent_tag_ranges. cbn [rev flat_map app].
    destruct roots as [|n rest] eqn:E.
    + split; auto; try constructor.
    + rewrite <- E in *. assert (I : In n roots) by (rewrite E; left; auto).
      assert (IL : In (last roots n) roots) by (apply last_in; congruence).
      split.
      * exact Logic.I.
      * constructor; [|constructor]. split; cbn; eapply node_bd; eauto using root_in.
      * constructor; [|constructor]. cbn. pose proof (chain_last n _ _ _ _ C I).
        pose proof (chain_bounds _ _ _ _ C I). lia.
      * intros [_ CC]. constructor; [|constructor]. cbn. eapply CC; eauto.
      * discriminate.
  - subst r. destruct SPEC as (P & OB & _). destruct (all_parents _ _ P) as (PN & PB & PS).
    rename n' into n. rename ps' into ps. cbn zeta in *. set (R := get_all_parent_tag_ranges ps roots) in *.
    assert (I : In n (doc_nodes roots)) by (apply path_in in P; tauto).
    destruct (node_bd U d cs void roots HD HP n I) as [B1 B2].
    pose proof (SP _ I) as S. unfold span_ok in S.
    assert (RP : Forall (fun r => fst r <= snd r) R).
    { apply Forall_forall. intros x X. apply PS in X. unfold spans in X. lia. }
    assert (RI : Forall (fun r => fst r <= o /\ o <= snd r) R).
    { apply Forall_forall. intros x X. apply PS in X. unfold spans in X. lia. }
    assert (RN : R <> []).
    { unfold R, get_all_parent_tag_ranges. destruct roots; [|intros Q; apply app_eq_nil in Q as [_ Q]; discriminate].
      inversion P; subst; contradiction. }
    assert (NR : nest ((n_start n, n_end n) :: R)).
    { apply nest_cons; [assumption|]. intros b Hb. apply PS in Hb. unfold spans, incl_r in *. cbn. lia. }
    assert (BS : Bd t (n_start n + 1)).
    { destruct (node_facts _ _ _ _ _ HU HP) as (lt & _ & FF). destruct (FF n I). eapply Bd_after_ascii; eauto. reflexivity. }
    (* the ranges of a start tag in front of ranges around the node *)
    assert (TAG : forall s e al tl, n_ste n = Some s -> o < s ->
      get_attribute_level_ranges U d n o cs = Ok al ->
      Bd t e -> nest tl -> Forall on_bd tl -> Forall (fun r => fst r <= snd r) tl ->
      (cursor_covered o -> Forall (fun r => fst r <= o /\ o <= snd r) tl) ->
      (cursor_covered o -> n_start n + 1 <= o /\ o <= e) ->
      (forall r, In r tl -> fst r <= n_start n + 1 /\ e <= snd r) ->
      (forall q, closed_by q s -> n_start n + 1 <= q -> q <= e) ->
      applicable o (al ++ (n_start n + 1, e) :: tl)).
    { intros s e al tl ST OS G Be TN TB TP TI CI TS CE.
      destruct (attr_ranges n s o al I ST ltac:(lia) G) as (q & CB & Q1 & [G1 G2 G3 G4] & _).
      specialize (CE _ CB Q1).
      assert (NT : nest ((n_start n + 1, e) :: tl)).
      { apply nest_cons; [assumption|]. intros b Hb. apply TS in Hb. unfold incl_r. cbn. lia. }
      split.
      - apply nest_app; auto. intros a b Ia Ib. rewrite Forall_forall in G3. specialize (G3 a Ia).
        destruct Ib as [<-|Ib]; [unfold incl_r; cbn; lia|]. apply TS in Ib. unfold incl_r. lia.
      - apply Forall_app. split; auto. constructor; auto. split; auto.
      - apply Forall_app. split; [eapply Forall_impl; [|exact G2]; cbn; lia|]. constructor; auto. cbn. lia.
      - intros CC. apply Forall_app. split; auto.
      - intros _ Q. apply app_eq_nil in Q as [_ Q]. discriminate. }
    destruct (n_ste n) as [s|] eqn:ST.
    + destruct (start_tag_end n s I ST) as [B3 B4]. destruct (n_ets n) as [e|] eqn:ET.
      * destruct (B4 e eq_refl) as [B5 B6]. destruct S as (_ & LE & S1 & S2 & S3 & S4).
        assert (AR : applicable o ((n_start n, n_end n) :: R)).
        { split; auto.
          - constructor; auto. split; auto.
          - constructor; auto. cbn; lia.
          - intros _. constructor; auto. cbn. lia.
          - discriminate. }
        destruct ((n_start n <? o) && (o <? s)) eqn:C1 in H.
        { apply bind_ok in H as (e1 & E1 & H). unfold usub in E1. destruct (1 <=? s) eqn:E2; [|discriminate].
          apply Ok_inj in E1. apply bind_ok in H as (al & G & H). apply Ok_inj in H. subst l e1.
          apply (TAG s); auto; try lia.
          - destruct (attr_ranges n s o al I ST ltac:(lia) G) as (q & (l0 & k & _ & _ & _ & _ & [(_ & Q1 & Q2)|(_ & Q1 & Q2)]) & Q3 & _).
            + replace (s - 1) with q by lia. apply (Bd_at_ascii t q GT); auto; [|reflexivity].
              rewrite <- (Nat.add_0_r q), <- (sub_nth_error t q s) by lia. rewrite Q2. auto.
            + replace (s - 1) with (q + 1) by lia. apply (Bd_at_ascii t (q + 1) GT); auto; [|reflexivity].
              rewrite <- (sub_nth_error t q s) by lia. rewrite Q2. auto.
          - constructor; auto. split; auto.
          - constructor; auto. cbn; lia.
          - intros _. constructor; auto. cbn. lia.
          - intros r [<-|X]; [cbn; lia|]. apply PS in X. unfold spans in X. lia.
          - intros q (l0 & k & _ & _ & _ & _ & Q) _. lia. }
        destruct ((s <=? o) && (o <=? e)) eqn:C2 in H.
        { apply Ok_inj in H. subst l. destruct AR as [R1 R2 R3 R4 R5]. split; [| |constructor; auto; cbn; lia| |discriminate].
          - apply nest_cons; [assumption|]. intros b [<-|X]; [unfold incl_r; cbn; lia|].
            apply PS in X. unfold spans, incl_r in *. cbn. lia.
          - constructor; auto. split; auto.
          - intros CC. constructor; auto. cbn. lia. }
        destruct (e + 2 <=? o) eqn:C3 in H; [|apply Ok_inj in H; subst l; auto].
        apply bind_ok in H as (e1 & E1 & H). unfold usub in E1. destruct (1 <=? n_end n) eqn:E2; [|discriminate].
        apply Ok_inj in E1. apply Ok_inj in H. subst l e1. destruct AR as [R1 R2 R3 R4 R5].
        assert (BE : Bd t (n_end n - 1)).
        { apply boundary_Bd; auto; [lia|]. destruct (PT n IN) as [_ PT2]. apply (PT2 e); auto. lia. }
        assert (BP : Bd t (e + 2)).
        { apply is_prefix_spec in B6 as (w & W). replace (e + 2) with (e + 1 + 1) by lia.
          apply (Bd_after_ascii t (e + 1) SLASH); auto; [|reflexivity].
          rewrite <- skipn_nth_error, W. auto. }
        split; auto.
        -- apply nest_cons; [assumption|]. intros b [<-|X]; [unfold incl_r; cbn; lia|].
           apply PS in X. unfold spans, incl_r in *. cbn. lia.
        -- constructor; auto. split; auto.
        -- constructor; auto. cbn. lia.
        -- intros CC. constructor; auto. cbn. lia.
        -- discriminate.
      * destruct S as (_ & LE & S1 & S2 & S3).
        destruct (negb (s =? n_end n)) eqn:C1.
        { apply Ok_inj in H. subst l. split.
          - exact Logic.I.
          - constructor; [|constructor]. split; auto.
          - constructor; [|constructor]. cbn. lia.
          - intros _. constructor; [|constructor]. cbn. lia.
          - discriminate. }
        assert (s = n_end n) by lia. subst s.
        apply bind_ok in H as (c & U1 & H). unfold usub in U1. destruct (2 <=? n_end n) eqn:L2; [|discriminate].
        apply Ok_inj in U1. apply bind_ok in H as (text & G0 & H). apply bind_ok in H as (e & E1 & H).
        apply bind_ok in H as (al & G & H). apply Ok_inj in H. subst l c.
        assert (TX : text = bs "/>" <-> sub t (n_end n - 2) (n_end n) = bs "/>").
        { unfold get_content in G0. cbn [r_start r_end range_at] in G0.
          rewrite (do_inv _ HD (n_end n)) in G0 by (auto using Bd_boundary, Bd_le).
          apply slice_ok in G0 as (W1 & W2 & _ & _ & ->). split; intros Q.
          - pose proof (f_equal (@length N) Q) as L. rewrite sub_length in L by auto.
            change (length (bs "/>")) with 2 in L. replace (n_end n - 2) with (offset_at d (position_at d (n_end n - 2))) by lia. auto.
          - assert (Bd t (n_end n - 2)).
            { apply (Bd_at_ascii t _ SLASH); auto; [|reflexivity]. rewrite <- (Nat.add_0_r (n_end n - 2)).
              rewrite <- (sub_nth_error t _ (n_end n)) by lia. rewrite Q. auto. }
            rewrite (do_inv _ HD) by (auto using Bd_boundary, Bd_le). auto. }
        destruct (attr_ranges n _ o al I ST ltac:(lia) G) as (q & CB & Q3 & _).
        assert (EB : Bd t e /\ forall q', closed_by q' (n_end n) -> q' <= e).
        { destruct CB as (l0 & k & T0 & K0 & K1 & K2 & K3).
          assert (UQ : forall q', closed_by q' (n_end n) -> q' = q).
          { intros q' (l1 & k' & T1 & K0' & K1' & K2' & K3'). rewrite T0 in T1. apply Ok_inj in T1. subst l1.
            rewrite <- K1, <- K1'. f_equal. symmetry. eapply (tiles_end_inj _ _ _ k k'); eauto using doc_tiles; lia. }
          destruct (beq text (bs "/>")) eqn:TE; unfold usub in E1.
          - apply beq_eq in TE. apply TX in TE. rewrite L2 in E1. apply Ok_inj in E1. subst e.
            destruct (PT n IN) as [PT1 _]. destruct (PT1 ST TE) as (l2 & T2 & k2 & J1 & J2 & J3 & J4).
            rewrite T0 in T2. apply Ok_inj in T2. subst l2. rewrite ST in J4. apply Some_inj in J4.
            assert (k = k2) by (eapply (tiles_end_inj _ _ _ k k2); eauto using doc_tiles; lia). subst k2.
            destruct K3 as [(K3 & _)|(_ & K3 & K4)]; [congruence|]. replace (n_end n - 2) with q by lia.
            split; [|intros q' Q'; apply UQ in Q'; lia].
            apply (Bd_at_ascii t q SLASH); auto; [|reflexivity].
            rewrite <- (Nat.add_0_r q), <- (sub_nth_error t q (n_end n)) by lia. rewrite K4. auto.
          - destruct (1 <=? n_end n) eqn:L1; [|discriminate]. apply Ok_inj in E1. subst e.
            split; [|intros q' Q'; apply UQ in Q'; lia].
            apply (Bd_at_ascii t _ GT); auto; [|reflexivity].
            destruct K3 as [(_ & K3 & K4)|(_ & K3 & K4)].
            + replace (n_end n - 1) with (q + 0) by lia. rewrite <- (sub_nth_error t q (n_end n)) by lia. rewrite K4. auto.
            + replace (n_end n - 1) with (q + 1) by lia. rewrite <- (sub_nth_error t q (n_end n)) by lia. rewrite K4. auto. }
        destruct EB as [EB1 EB2].
        assert (EL : e <= n_end n).
        { unfold usub in E1. destruct (beq text (bs "/>")); [rewrite L2 in E1|destruct (1 <=? n_end n); [|discriminate]];
            apply Ok_inj in E1; lia. }
        apply (TAG (n_end n)); auto; try lia.
        -- intros [CC _]. destruct (CC n IN ST) as [CC1 CC2]. split; [lia|]. unfold usub in E1.
           destruct (beq text (bs "/>")) eqn:TE.
           ++ apply beq_eq in TE. apply TX in TE. specialize (CC2 TE). rewrite L2 in E1. apply Ok_inj in E1. lia.
           ++ destruct (1 <=? n_end n); [|discriminate]. apply Ok_inj in E1. lia.
        -- intros r X. apply PS in X. unfold spans in X. lia.
    + apply Ok_inj in H. subst l. split; auto.
Qed.

(** ** Dropping repeated ranges *)
Fixpoint dd (l : list (nat * nat)) : list (nat * nat) :=
  match l with
  | [] => []
  | a :: l' => match l' with
               | b :: _ => if pair_eqb a b then dd l' else a :: dd l'
               | [] => [a]
               end
  end.
Lemma chain_snoc l : forall prev acc a, SelectionRange.chain prev (l ++ [a]) acc =
  let c := SelectionRange.chain prev l acc in
  match last (map Some l) prev with Some v => if pair_eqb a v then c else a :: c | None => a :: c end.
Proof.
  induction l as [|x l IH]; intros prev acc a; cbn [app SelectionRange.chain].
  - cbn. destruct prev; auto.
  - rewrite IH. cbn zeta. destruct l as [|y l]; auto. cbn [map].
    change (last (Some x :: Some y :: map Some l) prev) with (last (Some y :: map Some l) prev).
    assert (E : forall (q q' : option (nat * nat)), last (Some y :: map Some l) q = last (Some y :: map Some l) q').
    { clear. revert y. induction l as [|z l IH]; intros y q q'; auto. cbn [map].
      change (last (Some z :: map Some l) q = last (Some z :: map Some l) q'). apply IH. }
    rewrite (E (Some x) prev). auto.
Qed.
Lemma chain_dd l : SelectionRange.chain None (rev l) [] = dd l.
Proof.
  induction l as [|a l IH]; auto. cbn [rev]. rewrite chain_snoc. cbn zeta. rewrite IH.
  destruct l as [|b l]; auto. cbn [rev dd]. rewrite map_app. cbn [map]. rewrite last_last. auto.
Qed.
Lemma pair_eqb_eq a b : pair_eqb a b = true <-> a = b.
Proof.
  unfold pair_eqb. destruct a, b. cbn. split; intros H.
  - apply andb_true_iff in H as [H1 H2]. apply Nat.eqb_eq in H1, H2. congruence.
  - inversion H; subst. rewrite !Nat.eqb_refl. auto.
Qed.
Lemma dd_cons a l : exists r, dd (a :: l) = a :: r.
Proof.
  revert a. induction l as [|b l IH]; intros a; [exists []; auto|].
  destruct (IH b) as (r & E). cbn [dd] in E |- *. destruct (pair_eqb a b) eqn:Q.
  - apply pair_eqb_eq in Q. subst b. eauto.
  - eauto.
Qed.
Lemma dd_in l r : In r (dd l) -> In r l.
Proof.
  induction l as [|a l IH]; auto. cbn [dd]. destruct l as [|b l]; auto.
  destruct (pair_eqb a b); [right; auto|]. intros [<-|H]; [left; auto|right; auto].
Qed.
Fixpoint strict (l : list (nat * nat)) : Prop :=
  match l with
  | a :: ((b :: _) as r) => (incl_r a b /\ a <> b) /\ strict r
  | _ => True
  end.
Lemma dd_strict l : nest l -> strict (dd l).
Proof.
  induction l as [|a l IH]; intros N; [exact Logic.I|]. destruct l as [|b l]; [exact Logic.I|].
  destruct N as [N1 N2]. specialize (IH N2). cbn [dd]. cbn [dd] in IH.
  destruct (pair_eqb a b) eqn:Q; auto. destruct (dd_cons b l) as (r & E). cbn [dd] in E. rewrite E in IH |- *.
  split; auto. split; auto. intros ->. rewrite (proj2 (pair_eqb_eq b b) eq_refl) in Q. discriminate.
Qed.
End S.

(** ** Specification *)
Definition inside (a b : range) : Prop := pos_le (r_start b) (r_start a) /\ pos_le (r_end a) (r_end b).
(** Each range is inside the next one and different from it. *)
Fixpoint nested_ranges (l : list range) : Prop :=
  match l with
  | a :: ((b :: _) as r) => inside a b /\ a <> b /\ nested_ranges r
  | _ => True
  end.

(** C36: the ranges of a cursor, innermost first, nest properly. *)
Theorem C36_nested : forall U d cs void roots p rs, textdoc_ok d -> parse U (d_text d) cs void = Ok roots ->
  plain_tags U d cs roots (offset_at d p) ->
  get_selection_range U d p roots cs = Ok rs ->
  rs <> [] /\ nested_ranges rs /\ Forall (fun r => pos_le (r_start r) (r_end r)) rs.
Proof.
  intros U d cs void roots p rs HD HP PT H. unfold get_selection_range in H. apply bind_ok in H as (l & A & H).
  apply (applicable_ranges U d cs void roots HD HP) in A as [A1 A2 A3 _ _]; auto. rewrite chain_dd in H.
  apply Ok_inj in H. destruct (dd l) as [|r0 l'] eqn:E.
  - subst rs. split; [discriminate|]. split; [exact Logic.I|]. constructor; [|constructor]. left. auto.
  - rewrite <- E in H. split; [subst rs; rewrite E; discriminate|].
    assert (B : Forall (on_bd d) (dd l)).
    { apply Forall_forall. intros x X. apply dd_in in X. rewrite Forall_forall in A2. auto. }
    assert (PR : Forall (fun r => fst r <= snd r) (dd l)).
    { apply Forall_forall. intros x X. apply dd_in in X. rewrite Forall_forall in A3. auto. }
    pose proof (dd_strict _ A1) as ST. subst rs. split.
    + clear - HD ST B. induction (dd l) as [|a m IH]; [exact Logic.I|]. destruct m as [|b m]; [exact Logic.I|].
      inversion B as [|? ? [Ba1 Ba2] B']; subst. destruct ST as [[[S1 S2] S3] ST].
      inversion B' as [|? ? [Bb1 Bb2] _]; subst. split; [split; apply pos_mono; auto|]. split; [|apply IH; auto].
      intros Q. apply S3. unfold range_at in Q. injection Q as Q1 Q2.
      apply (f_equal (offset_at d)) in Q1, Q2. rewrite !(do_inv _ HD) in Q1, Q2 by (auto using Bd_boundary, Bd_le).
      destruct a, b; cbn in *; congruence.
    + apply Forall_map. apply Forall_forall. intros x X. rewrite Forall_forall in B, PR. destruct (B x X).
      apply pos_mono; auto.
Qed.
Print Assumptions C36_nested.

(** C36: every range contains the cursor. *)
Theorem C36_contains_cursor : forall U d cs void roots p rs, textdoc_ok d -> parse U (d_text d) cs void = Ok roots ->
  plain_tags U d cs roots (offset_at d p) -> cursor_covered d roots (offset_at d p) ->
  get_selection_range U d p roots cs = Ok rs ->
  Forall (fun r => offset_at d (r_start r) <= offset_at d p <= offset_at d (r_end r)) rs.
Proof.
  intros U d cs void roots p rs HD HP PT CC H. unfold get_selection_range in H. apply bind_ok in H as (l & A & H).
  apply (applicable_ranges U d cs void roots HD HP) in A as [A1 A2 _ A4 _]; auto. rewrite chain_dd in H.
  apply Ok_inj in H. specialize (A4 CC). destruct (dd l) as [|r0 l'] eqn:E.
  - subst rs. constructor; [|constructor]. cbn. lia.
  - rewrite <- E in H. subst rs. apply Forall_map. apply Forall_forall. intros x X. apply dd_in in X.
    rewrite Forall_forall in A2, A4. destruct (A2 x X). cbn.
    rewrite !(do_inv _ HD) by (auto using Bd_boundary, Bd_le). auto.
Qed.
Print Assumptions C36_contains_cursor.

(** ** Completeness *)
Lemma dd_keeps l r : In r l -> In r (dd l).
Proof.
  induction l as [|a l IH]; auto. cbn [dd]. destruct l as [|b l]; auto. intros [<-|I].
  - destruct (pair_eqb a b) eqn:Q; [|left; auto]. apply pair_eqb_eq in Q. subst b. apply IH. left. auto.
  - destruct (pair_eqb a b); [|right]; auto.
Qed.
Lemma selection_applicable U d p roots cs rs : get_selection_range U d p roots cs = Ok rs ->
  exists l, get_applicable_ranges U d p roots cs = Ok l /\
    (forall r, In r l -> In (range_at d (fst r) (snd r)) rs) /\ (forall r, l = [r] -> rs = [range_at d (fst r) (snd r)]).
Proof.
  intros H. unfold get_selection_range in H. apply bind_ok in H as (l & A & H). apply Ok_inj in H.
  rewrite chain_dd in H. exists l. split; auto. split.
  - intros r I. apply dd_keeps in I. destruct (dd l); [contradiction|]. subst rs. apply in_map_iff. eauto.
  - intros r ->. cbn in H. auto.
Qed.

(** An element that was never closed and has content: it hides what is around it. *)
Definition unclosed (n : node) : Prop :=
  exists s, n_ste n = Some s /\ n_ets n = None /\ s <> n_end n.

(** C36: the element at the cursor and the elements around it are offered. *)
Theorem C36_elements : forall U d cs void roots p rs n, textdoc_ok d -> parse U (d_text d) cs void = Ok roots ->
  innermost roots (offset_at d p) n -> get_selection_range U d p roots cs = Ok rs ->
  let o := offset_at d p in
  let offered a b := In (range_at d a b) rs in
  (unclosed n -> rs = [range_at d (n_start n) (n_end n)]) /\
  (forall s e, n_ste n = Some s -> n_ets n = Some e ->
     offered (n_start n) (n_end n) /\
     (n_start n < o < s -> offered (n_start n + 1) (s - 1)) /\
     (s <= o <= e -> offered s e) /\
     (e + 2 <= o -> offered (e + 2) (n_end n - 1))) /\
  (n_ste n = Some (n_end n) -> n_ets n = None -> offered (n_start n + 1) (n_end n - 1) \/ offered (n_start n + 1) (n_end n - 2)) /\
  (~ unclosed n ->
     (forall m, In m (doc_nodes roots) -> n_start m <= o < n_end m -> m <> n ->
        offered (n_start m) (n_end m) /\
        (forall a b, n_ste m = Some a -> n_ets m = Some b -> a < b -> offered a b)) /\
     (forall r rest, roots = r :: rest -> offered (n_start r) (n_end (last roots r)))).
Proof.
  intros U d cs void roots p rs n HD HP IN H. cbn zeta. pose proof (do_utf8 d HD) as HU.
  set (o := offset_at d p) in *. apply selection_applicable in H as (l & A & H1 & H2).
  unfold get_applicable_ranges in A. fold o in A. apply bind_ok in A as (r & F & A).
  destruct (find_at_innermost U (d_text d) cs void roots o HU HP) as [[F1 NO]|(n' & ps & F1 & IN' & UQ)];
    rewrite F in F1; apply Ok_inj in F1; subst r; [exfalso; eapply NO; eauto|].
  apply UQ in IN as E. subst n'.
  destruct (C23_find_node_at _ _ _ _ _ o HU HP) as (r' & F' & SPEC). rewrite F in F'. apply Ok_inj in F'. subst r'.
  destruct SPEC as (P & OB & FI & _).
  destruct (C12_spans _ _ _ _ _ HU HP) as (_ & SP). rewrite Forall_forall in SP.
  assert (S := SP n ltac:(apply IN)). unfold span_ok in S.
  assert (off : forall a b, In (a, b) l -> In (range_at d a b) rs) by (intros a b I; apply (H1 _ I)).
  assert (FULL : ~ unclosed n -> forall x, In x (get_all_parent_tag_ranges ps roots) -> In x l).
  { intros NU x X. destruct (n_ste n) as [s|] eqn:ST; [destruct (n_ets n) as [e|] eqn:ET|].
    - destruct ((n_start n <? o) && (o <? s)).
      { apply bind_ok in A as (e1 & _ & A). apply bind_ok in A as (al & _ & A). apply Ok_inj in A. subst l.
        apply in_app_iff. right. right. right. auto. }
      destruct ((s <=? o) && (o <=? e)); [apply Ok_inj in A; subst l; right; right; auto|].
      destruct (e + 2 <=? o); [|apply Ok_inj in A; subst l; right; auto].
      apply bind_ok in A as (e1 & _ & A). apply Ok_inj in A. subst l. right; right. auto.
    - destruct (negb (s =? n_end n)) eqn:C; [exfalso; apply NU; exists s; repeat split; auto; lia|].
      apply bind_ok in A as (c & _ & A). apply bind_ok in A as (tx & _ & A). apply bind_ok in A as (e & _ & A).
      apply bind_ok in A as (al & _ & A). apply Ok_inj in A. subst l. apply in_app_iff. right. right. auto.
    - apply Ok_inj in A. subst l. auto. }
  split; [|split; [|split]].
  - intros (s & S1 & S2 & S3). rewrite S1, S2 in A. replace (negb (s =? n_end n)) with true in A by lia.
    apply Ok_inj in A. subst l. apply (H2 _ eq_refl).
  - intros s e ST ET. rewrite ST, ET in A, S. destruct S as (_ & _ & S1 & S2 & S3 & _).
    destruct ((n_start n <? o) && (o <? s)) eqn:C1 in A.
    { apply bind_ok in A as (e1 & E1 & A). unfold usub in E1. destruct (1 <=? s); [|discriminate]. apply Ok_inj in E1.
      apply bind_ok in A as (al & _ & A). apply Ok_inj in A. subst l e1.
      split; [apply off, in_app_iff; cbn; auto|]. split; [intros _; apply off, in_app_iff; cbn; auto|]. split; intros; lia. }
    destruct ((s <=? o) && (o <=? e)) eqn:C2 in A.
    { apply Ok_inj in A. subst l. split; [apply off; cbn; auto|]. split; [lia|]. split; [intros _; apply off; cbn; auto|lia]. }
    destruct (e + 2 <=? o) eqn:C3 in A.
    + apply bind_ok in A as (e1 & E1 & A). unfold usub in E1. destruct (1 <=? n_end n); [|discriminate]. apply Ok_inj in E1.
      apply Ok_inj in A. subst l e1. split; [apply off; cbn; auto|]. split; [lia|]. split; [lia|]. intros _. apply off; cbn; auto.
    + apply Ok_inj in A. subst l. split; [apply off; cbn; auto|]. split; [lia|]. split; lia.
  - intros ST ET. rewrite ST, ET in A. rewrite Nat.eqb_refl in A. cbn [negb] in A.
    apply bind_ok in A as (c & _ & A). apply bind_ok in A as (tx & _ & A). apply bind_ok in A as (e & E1 & A).
    apply bind_ok in A as (al & _ & A). apply Ok_inj in A. subst l. unfold usub in E1.
    assert (X : In (range_at d (n_start n + 1) e) rs) by (apply off, in_app_iff; cbn; auto).
    destruct (beq _ _); [destruct (2 <=? n_end n)|destruct (1 <=? n_end n)]; try discriminate; apply Ok_inj in E1; subst e; auto.
  - intros NU. specialize (FULL NU). unfold get_all_parent_tag_ranges in FULL. split.
    + intros m M Cm NE. assert (J : In m ps).
      { assert (J : In m (ps ++ [n])) by (rewrite <- FI; apply filter_In; split; auto; lia).
        apply in_app_iff in J as [J|[<-|[]]]; congruence. }
      assert (G : forall x, In x (get_node_ranges m) -> In x l).
      { intros x X. apply FULL, in_app_iff. left. apply in_flat_map. exists m. split; auto. apply -> in_rev. auto. }
      unfold get_node_ranges in G. split.
      * apply off, G. destruct (n_ste m) as [u|], (n_ets m) as [v|]; try (left; reflexivity).
        destruct (u <? v); [right|]; left; reflexivity.
      * intros a b E1 E2 L. apply off, G. rewrite E1, E2. replace (a <? b) with true by lia. left. auto.
    + intros r rest E. apply off, FULL, in_app_iff. right. rewrite E. left. auto.
Qed.
Print Assumptions C36_elements.

(** C36: in a start tag that the element's ranges describe, the attribute name and
    the attribute value at the cursor are offered, the value also without its
    quotes. *)
Theorem C36_attributes : forall U d cs void roots p rs n s k w, textdoc_ok d -> parse U (d_text d) cs void = Ok roots ->
  innermost roots (offset_at d p) n -> n_ste n = Some s -> n_start n < offset_at d p < s -> ~ unclosed n ->
  get_selection_range U d p roots cs = Ok rs ->
  in_start_tag U d cs n k -> at_token d (offset_at d p) k w ->
  In (range_at d (fst w) (snd w)) rs.
Proof.
  intros U d cs void roots p rs n s k w HD HP IN ST OB NU H KI W. pose proof (do_utf8 d HD) as HU.
  set (o := offset_at d p) in *. apply selection_applicable in H as (l & A & H1 & _).
  unfold get_applicable_ranges in A. fold o in A. apply bind_ok in A as (r & F & A).
  destruct (find_at_innermost U (d_text d) cs void roots o HU HP) as [[F1 NO]|(n' & ps & F1 & IN' & UQ)];
    rewrite F in F1; apply Ok_inj in F1; subst r; [exfalso; eapply NO; eauto|].
  apply UQ in IN as E. subst n'. rewrite ST in A.
  assert (AL : exists al tl, get_attribute_level_ranges U d n o cs = Ok al /\ l = al ++ tl).
  { destruct (n_ets n) as [e|] eqn:ET.
    - replace ((n_start n <? o) && (o <? s)) with true in A by lia.
      apply bind_ok in A as (e1 & _ & A). apply bind_ok in A as (al & G & A). apply Ok_inj in A. eauto.
    - destruct (negb (s =? n_end n)) eqn:C; [exfalso; apply NU; exists s; repeat split; auto; lia|].
      apply bind_ok in A as (c & _ & A). apply bind_ok in A as (tx & _ & A). apply bind_ok in A as (e & _ & A).
      apply bind_ok in A as (al & G & A). apply Ok_inj in A. eauto. }
  destruct AL as (al & tl & G & ->).
  destruct (attr_ranges U d cs void roots HD HP n s o al ltac:(apply IN) ST ltac:(lia) G) as (q & _ & _ & _ & HK).
  apply H1, in_app_iff. left. eapply HK; eauto.
Qed.
Print Assumptions C36_attributes.

(** Outside every element the answer is the stretch from the first element to the
    last one, or the cursor itself in a document without elements. *)
Theorem C36_outside : forall U d cs void roots p, textdoc_ok d -> parse U (d_text d) cs void = Ok roots ->
  (forall n, ~ innermost roots (offset_at d p) n) ->
  get_selection_range U d p roots cs =
    Ok (match roots with [] => [mkRange p p] | r :: _ => [range_at d (n_start r) (n_end (last roots r))] end).
Proof.
  intros U d cs void roots p HD HP NO. pose proof (do_utf8 d HD) as HU. unfold get_selection_range, get_applicable_ranges.
  destruct (find_at_innermost U (d_text d) cs void roots (offset_at d p) HU HP) as [[-> _]|(n & ps & _ & IN & _)];
    [|exfalso; eapply NO; eauto].
  cbn [bind]. destruct roots; auto.
Qed.
Print Assumptions C36_outside.

(** ** Termination and panics *)
Lemma attr_step_fuel x rel y s : attr_step x rel y s <> OutOfFuel.
Proof.
  unfold attr_step, token_text, slice, usub. destruct (tok y); try discriminate.
  - destruct (_ <? _); discriminate.
  - destruct (as_inside s); [|discriminate]. destruct (_ && _); [|discriminate]. cbn [bind].
    destruct (rel <? _); [discriminate|]. destruct (rel <=? _); [|discriminate].
    destruct (1 <=? _); [|discriminate]. cbn [bind]. destruct (_ || _); [|discriminate].
    destruct (1 <=? _); discriminate.
Qed.
Lemma attr_loop_tokens U x cs rel fuel : forall y s, attr_loop U x cs rel fuel y s = OutOfFuel ->
  tokens U x false cs fuel y = OutOfFuel \/ exists y', scan U x false cs y' = OutOfFuel.
Proof.
  induction fuel as [|fuel IH]; intros y s H; [left; reflexivity|]. cbn [attr_loop tokens] in *.
  destruct (scan U x false cs y) as [y'|e|] eqn:S; cbn [bind] in *; [|discriminate|eauto].
  destruct (token_eqb (tok y') EOS); [discriminate|].
  destruct (attr_step x rel y' s) as [s'|e|] eqn:A; cbn [bind] in H; [|discriminate|exfalso; eapply attr_step_fuel; eauto].
  apply IH in H as [-> |H]; auto.
Qed.
Lemma attr_loop_fuel U x cs rel : Utf8 x ->
  attr_loop U x cs rel (scan_fuel x) (scanner_new 0 WithinContent) (mkA [] false 0) <> OutOfFuel.
Proof.
  intros HX H. apply attr_loop_tokens in H as [H|(y & H)].
  - revert H. apply tokens_no_fuel; auto; unfold scan_fuel, measure; cbn -[Nat.mul Nat.sub Nat.leb]; [lia|].
    destruct (length x <=? 0); lia.
  - revert H. apply scan_no_fuel; auto.
Qed.

Lemma get_content_cases d r : textdoc_ok d ->
  (exists x, get_content d r = Ok x /\ Utf8 x) \/ get_content d r = Panic PSlice.
Proof.
  intros HD. unfold get_content. destruct (do_offset _ HD (r_start r)) as [A1 A2]. destruct (do_offset _ HD (r_end r)) as [B1 B2].
  unfold slice. destruct (offset_at d (r_start r) <=? offset_at d (r_end r)) eqn:L; [|right; reflexivity].
  rewrite A2, B2. replace (offset_at d (r_end r) <=? length (d_text d)) with true by lia. left. eexists. split; [reflexivity|].
  pose proof (do_utf8 d HD). apply Bd_sub; [apply boundary_Bd; auto|apply boundary_Bd; auto|lia].
Qed.

(** C36: the computation ends. *)
Theorem C36_terminates : forall U d cs void roots p, textdoc_ok d -> parse U (d_text d) cs void = Ok roots ->
  get_selection_range U d p roots cs <> OutOfFuel.
Proof.
  intros U d cs void roots p HD HP H. unfold get_selection_range in H.
  assert (G : forall n, get_attribute_level_ranges U d n (offset_at d p) cs <> OutOfFuel).
  { intros n G. unfold get_attribute_level_ranges in G.
    destruct (get_content_cases d (range_at d (n_start n) (n_end n)) HD) as [(x & E & HX)|E]; rewrite E in G; cbn [bind] in G; [|discriminate].
    unfold usub in G. destruct (n_start n <=? _); cbn [bind] in G; [|discriminate].
    match type of G with bind ?a _ = _ => destruct a eqn:E2; cbn [bind] in G; try discriminate end.
    eapply attr_loop_fuel; eauto. }
  destruct (get_applicable_ranges U d p roots cs) as [l|e|] eqn:A; cbn [bind] in H; try discriminate.
  unfold get_applicable_ranges in A.
  destruct (find_at_innermost U (d_text d) cs void roots (offset_at d p) (do_utf8 d HD) HP) as [[F _]|(n & ps & F & _ & _)];
    rewrite F in A; cbn [bind] in A; [discriminate|].
  specialize (G n). destruct (get_attribute_level_ranges U d n (offset_at d p) cs); [| |congruence];
  unfold usub in A; destruct (n_ste n) as [s|]; [destruct (n_ets n) as [e'|]| |destruct (n_ets n) as [e'|]|]; try discriminate.
  - destruct (_ && _); [destruct (1 <=? s); discriminate|]. destruct (_ && _); [discriminate|].
    destruct (_ <=? _); [|discriminate]. destruct (1 <=? _); discriminate.
  - destruct (negb _); [discriminate|]. destruct (2 <=? s); [|discriminate]. cbn [bind] in A.
    destruct (get_content_cases d (range_at d (s - 2) s) HD) as [(x & E & HX)|E]; rewrite E in A; cbn [bind] in A; [|discriminate].
    destruct (beq _ _); [|destruct (1 <=? s)]; discriminate.
  - destruct (_ && _); [destruct (1 <=? s); discriminate|]. destruct (_ && _); [discriminate|].
    destruct (_ <=? _); [|discriminate]. destruct (1 <=? _); discriminate.
  - destruct (negb _); [discriminate|]. destruct (2 <=? s); [|discriminate]. cbn [bind] in A.
    destruct (get_content_cases d (range_at d (s - 2) s) HD) as [(x & E & HX)|E]; rewrite E in A; cbn [bind] in A; [|discriminate].
    destruct (beq _ _); [|destruct (1 <=? s)]; discriminate.
Qed.
Print Assumptions C36_terminates.

(** C36: an ASCII document always gets an answer, without panic. *)
Lemma ascii_slice x a b : all_ascii x = true -> a <= b -> b <= length x -> slice x a b = Ok (sub x a b).
Proof.
  intros A L1 L2. unfold slice. rewrite !ascii_boundary by auto.
  replace (a <=? b) with true by lia. replace (b <=? length x) with true by lia. replace (a <=? length x) with true by lia. auto.
Qed.
Lemma ascii_sub x a b : all_ascii x = true -> all_ascii (sub x a b) = true.
Proof.
  unfold all_ascii. rewrite !forallb_forall. intros H c C. apply H. unfold sub in C.
  rewrite <- (firstn_skipn a x). apply in_app_iff. right. rewrite <- (firstn_skipn (b - a)). apply in_app_iff. auto.
Qed.
Lemma attr_loop_ascii U x cs rel : Utf8 x -> all_ascii x = true -> forall fuel y s, tok_off y <= pos y -> pos y <= length x ->
  measure x y < fuel -> exists r, attr_loop U x cs rel fuel y s = Ok r.
Proof.
  intros HX AX. induction fuel as [|fuel IH]; intros y s L1 L2 M; [lia|]. cbn [attr_loop].
  assert (GD : Good x y) by (intros _; left; apply boundary_Bd; auto; rewrite ascii_boundary by auto; lia).
  destruct (scan_safe U x false cs HX y GD) as [[y' S]|[_ (_ & _ & q & c & t' & _ & _ & _ & E & Sc & L)]].
  2:{ exfalso. destruct (scan_prefix_ne c Sc L) as (b & B1 & B2 & B3).
      assert (I : In b x).
      { rewrite E. apply in_app_iff. right. rewrite <- B1. apply last_in. intros Q. rewrite Q in B3. cbn in B3. lia. }
      unfold all_ascii in AX. rewrite forallb_forall in AX. apply AX in I. unfold is_cont in B2. lia. }
  rewrite S. cbn [bind]. destruct (token_eqb (tok y') EOS) eqn:T; [eauto|]. apply token_eqb_neq in T.
  pose proof (scan_measure U x false cs HX _ _ S T) as M'.
  pose proof (scan_outcome _ _ _ _ HX _ _ S) as O. apply outcome_progress in O as (Q1 & Q2).
  assert (Q3 : pos y < pos y' <= length x) by (destruct Q2 as [(? & _)|[(_ & ? & ?)|(E0 & _)]]; [congruence|lia|discriminate]).
  assert (A : exists s', attr_step x rel y' s = Ok s').
  { unfold attr_step, token_text. rewrite ascii_slice by (auto; lia). cbn [bind].
    destruct (tok y'); eauto.
    - destruct (_ <? _); eauto.
    - destruct (as_inside s); [|eauto]. destruct (_ <? _); [eauto|]. destruct (_ <=? _); [|eauto].
      unfold usub. rewrite sub_length by lia. replace (1 <=? pos y' - tok_off y') with true by lia. cbn [bind].
      destruct (_ || _); cbn [bind]; [|eauto]. replace (1 <=? pos y') with true by lia. cbn [bind]. eauto. }
  destruct A as (s' & ->). cbn [bind]. apply IH; lia.
Qed.
Theorem C36_ascii : forall U d cs void roots p, textdoc_ok d -> parse U (d_text d) cs void = Ok roots ->
  all_ascii (d_text d) = true -> exists rs, get_selection_range U d p roots cs = Ok rs.
Proof.
  intros U d cs void roots p HD HP AA. pose proof (do_utf8 d HD) as HU. unfold get_selection_range.
  enough (exists l, get_applicable_ranges U d p roots cs = Ok l) as (l & ->) by (cbn [bind]; eauto).
  unfold get_applicable_ranges. set (o := offset_at d p).
  assert (CT : forall a b, a <= b -> b <= length (d_text d) -> get_content d (range_at d a b) = Ok (sub (d_text d) a b)).
  { intros a b L1 L2. unfold get_content. cbn [range_at r_start r_end].
    rewrite !(do_inv _ HD) by (try rewrite ascii_boundary by auto; lia). apply ascii_slice; auto. }
  destruct (find_at_innermost U (d_text d) cs void roots o HU HP) as [[F _]|(n & ps & F & IN & _)];
    rewrite F; cbn [bind]; [eauto|].
  destruct (C12_spans _ _ _ _ _ HU HP) as (_ & SP). rewrite Forall_forall in SP.
  assert (S := SP n ltac:(apply IN)). unfold span_ok in S. assert (OB : n_start n <= o < n_end n) by apply IN.
  assert (G : exists al, get_attribute_level_ranges U d n o cs = Ok al).
  { unfold get_attribute_level_ranges. rewrite CT by lia. cbn [bind]. unfold usub. replace (n_start n <=? o) with true by lia.
    cbn [bind]. set (x := sub (d_text d) (n_start n) (n_end n)).
    assert (AX : all_ascii x = true) by (apply ascii_sub; auto).
    destruct (attr_loop_ascii U x cs (o - n_start n) (ascii_utf8 _ AX) AX (scan_fuel x) (scanner_new 0 WithinContent) (mkA [] false 0))
      as (r & ->); cbn [bind]; eauto; cbn; try lia.
    unfold measure, scan_fuel. cbn -[Nat.mul Nat.sub Nat.leb]. destruct (length x <=? 0); lia. }
  destruct G as (al & G0). rewrite G0. unfold usub. revert S.
  destruct (n_ste n) as [s|] eqn:ST; [|eauto]. destruct (n_ets n) as [e|]; intros (_ & LN & S1 & S2 & S3).
  - destruct (_ && _); [replace (1 <=? s) with true by lia; cbn [bind]; eauto|].
    destruct (_ && _); [eauto|]. destruct (_ <=? _); [|eauto]. replace (1 <=? n_end n) with true by lia. cbn [bind]. eauto.
  - destruct (negb _) eqn:C; [eauto|].
    assert (EQ : s = n_end n) by (apply negb_false_iff, Nat.eqb_eq in C; auto).
    assert (s2 : 2 <= s).
    { assert (OS : n_start n <= o < s) by (rewrite EQ; exact OB). clearbody o.
       destruct (attr_ranges U d cs void roots HD HP n s o al ltac:(apply IN) ST OS G0) as (q & (l0 & k & _ & _ & _ & _ & Q) & Q1 & _). lia. }
    replace (2 <=? s) with true by lia. cbn [bind]. rewrite CT by lia. cbn [bind].
    destruct (beq _ _); [|replace (1 <=? s) with true by lia]; cbn [bind]; eauto.
Qed.
Print Assumptions C36_ascii.

(** ** The hypotheses are met by an ordinary document *)
Definition sel_doc : textdoc := utf16_doc (bs "<ul><li id='a b' class=x>é<br/></li></ul>").
Definition sel_roots : list node :=
  match parse demo_unicode (d_text sel_doc) false html5_void with Ok r => r | _ => [] end.
Definition sel_at (o : nat) : list (nat * nat) :=
  match get_selection_range demo_unicode sel_doc (position_at sel_doc o) sel_roots false with
  | Ok l => map (fun r => (offset_at sel_doc (r_start r), offset_at sel_doc (r_end r))) l
  | _ => []
  end.
(** In the value of the first attribute; in the <br/>; in the end tag of <li>. *)
Example sel_value : sel_at 13 = [(12, 15); (11, 16); (8, 16); (5, 24); (4, 37); (0, 42)].
Proof. vm_compute. reflexivity. Qed.
Example sel_br : sel_at 29 = [(28, 30); (25, 32); (4, 37); (0, 42)] /\ sel_at 35 = [(34, 36); (4, 37); (0, 42)].
Proof. split; vm_compute; reflexivity. Qed.
Lemma sel_tokens : exists l, doc_tokens demo_unicode (d_text sel_doc) false = Ok l /\
  In (mkToken StartTagSelfClose 30 32 None WithinContent) l.
Proof. eexists. split; [vm_compute; reflexivity|]. cbn. tauto. Qed.

Example sel_hypotheses : textdoc_ok sel_doc /\ parse demo_unicode (d_text sel_doc) false html5_void = Ok sel_roots /\
  Forall (fun o => plain_tags demo_unicode sel_doc false sel_roots o /\ cursor_covered sel_doc sel_roots o) [13; 29; 35].
Proof.
  split; [apply C27_contract; exists (decode (d_text sel_doc)); vm_compute; auto|]. split; [vm_compute; reflexivity|].
  assert (D : exists a b c, doc_nodes sel_roots = [a; b; c] /\
     (n_start a, n_end a, n_ste a, n_ets a) = (0, 42, Some 4, Some 37) /\
     (n_start b, n_end b, n_ste b, n_ets b) = (4, 37, Some 25, Some 32) /\
     (n_start c, n_end c, n_ste c, n_ets c) = (27, 32, Some 32, None)).
  { vm_compute. do 3 eexists. split; [reflexivity|]. repeat split. }
  destruct D as (a & b & c & D & Ea & Eb & Ec). injection Ea as A1 A2 A3 A4. injection Eb as B1 B2 B3 B4. injection Ec as C1 C2 C3 C4.
  assert (SELF : exists l, doc_tokens demo_unicode (d_text sel_doc) false = Ok l /\ start_tag_ends_with l c StartTagSelfClose).
  { destruct sel_tokens as (l & T & K). exists l. split; auto.
    exists (mkToken StartTagSelfClose 30 32 None WithinContent). split; auto. split; auto. split; [cbn; lia|]. rewrite C3. auto. }
  assert (BD : is_boundary (d_text sel_doc) 36 = true /\ is_boundary (d_text sel_doc) 41 = true) by (split; vm_compute; reflexivity).
  assert (SL : sub (d_text sel_doc) 30 32 = bs "/>") by (vm_compute; reflexivity).
  assert (INB : forall o, o = 13 \/ o = 35 -> innermost sel_roots o b).
  { intros o O. split; [rewrite D; cbn; auto|]. split; [lia|]. intros m M. rewrite D in M.
    destruct M as [<-|[<-|[<-|[]]]]; lia. }
  assert (INC : innermost sel_roots 29 c).
  { split; [rewrite D; cbn; auto|]. split; [lia|]. intros m M. rewrite D in M. destruct M as [<-|[<-|[<-|[]]]]; lia. }
  assert (ONLY : forall o n, innermost sel_roots o n -> (o = 13 \/ o = 35 -> n = b) /\ (o = 29 -> n = c)).
  { intros o n (I & O & M). rewrite D in I. split.
    - intros Q. specialize (M b). rewrite D in M. specialize (M (or_intror (or_introl eq_refl))). destruct I as [<-|[<-|[<-|[]]]]; auto; lia.
    - intros Q. specialize (M c). rewrite D in M. specialize (M (or_intror (or_intror (or_introl eq_refl)))). destruct I as [<-|[<-|[<-|[]]]]; auto; lia. }
  assert (PB : forall o, o = 13 \/ o = 35 -> plain_tags demo_unicode sel_doc false sel_roots o /\ cursor_covered sel_doc sel_roots o).
  { intros o O. split.
    - intros n N. destruct (ONLY _ _ N) as [E _]. rewrite (E O). rewrite B2, B3, B4. split; [discriminate|].
      intros e _ _. tauto.
    - split; [|intros NO; exfalso; eapply NO; eauto]. intros n N. destruct (ONLY _ _ N) as [E _]. rewrite (E O).
      rewrite B2, B3. discriminate. }
  constructor; [apply PB; auto|]. constructor; [|constructor; [apply PB; auto|constructor]].
  split.
  - intros n N. destruct (ONLY _ _ N) as [_ E]. rewrite (E eq_refl). split; [intros _ _; exact SELF|]. rewrite C4. discriminate.
  - split; [|intros NO; exfalso; eapply NO; eauto]. intros n N _. destruct (ONLY _ _ N) as [_ E]. rewrite (E eq_refl).
    rewrite C1, C2. split; [lia|]. intros _. lia.
Qed.

(** ** Findings *)
Definition sel_run (s : str) (o : nat) : res (list (nat * nat)) :=
  let d := utf16_doc s in
  do roots <- parse demo_unicode s false html5_void;
  do l <- get_selection_range demo_unicode d (position_at d o) roots false;
  Ok (map (fun r => (offset_at d (r_start r), offset_at d (r_end r))) l).
(** Before the first element, on the '<' of an element without end tag, and between
    '/' and '>', a range does not contain the cursor. *)
Theorem C36_cursor_refuted :
  sel_run (bs "a<div></div>") 0 = Ok [(1, 12)] /\
  sel_run (bs "<br>") 0 = Ok [(1, 3); (0, 4)] /\
  sel_run (bs "<br/>") 4 = Ok [(1, 3); (0, 5)].
Proof. vm_compute. auto. Qed.
(** An unquoted value ending in '/': the ranges are not nested, (4, 8) against (1, 7). *)
Theorem C36_nested_refuted : sel_run (bs "<br x=c/>") 6 = Ok [(6, 8); (4, 8); (1, 7); (0, 9)].
Proof. vm_compute. auto. Qed.
(** The element's text is scanned again with a different setting, so a document that
    parses can still panic. *)
Theorem C36_panic_refuted : exists s roots, parse demo_unicode s false html5_void = Ok roots /\
  sel_run s 2 = Panic PSlice.
Proof.
  exists (bs "<div x><a <" ++ encode1 12288 ++ bs "></div>"). eexists. split; vm_compute; reflexivity.
Qed.
(** An element left open hides all the elements around it. *)
Theorem C36_unclosed_refuted : sel_run (bs "<p>a<b>c</p>") 6 = Ok [(4, 8)].
Proof. vm_compute. auto. Qed.

(** One answer per cursor, in order. *)
Theorem C36_one_per_cursor : forall U d cs roots ps ll, get_selection_ranges U d ps roots cs = Ok ll ->
  Forall2 (fun p rs => get_selection_range U d p roots cs = Ok rs) ps ll.
Proof.
  intros U d cs roots ps. induction ps as [|p ps IH]; intros ll H; cbn [get_selection_ranges] in H.
  - apply Ok_inj in H. subst ll. constructor.
  - apply bind_ok in H as (c & E & H). apply bind_ok in H as (l & L & H). apply Ok_inj in H. subst ll. constructor; auto.
Qed.
Print Assumptions C36_one_per_cursor.
