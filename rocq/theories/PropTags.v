(** * C28, C30-C33: rename, linked editing, matching tag, highlights, symbols *)
From Verif Require Import Base Stream Scanner BaseFacts ScannerFacts ScanStep ScanProps ScanPanic
  ScanShape ScanResume ScanEnter Tree Parser ParseSpec ParseInv ParseOrder PropParse TreeFacts PropTree
  ParseEnd PropEnd TextDoc PropDoc TagServices.
From Coq Require Import ZifyBool ZifyNat ZifyN.

(** ** Specification *)
(** The innermost node containing the offset [o]. *)
Definition innermost (roots : list node) (o : nat) (n : node) : Prop :=
  In n (doc_nodes roots) /\ n_start n <= o < n_end n /\
  forall m, In m (doc_nodes roots) -> n_start m <= o < n_end m ->
    n_start m <= n_start n /\ n_end n <= n_end m.
(** Where the name is presumed in the start tag and in the end tag: right after
    '<' and '</', with the length of the tag name [x]. *)
Definition on_start_name (n : node) (x : str) (o : nat) : Prop :=
  n_start n + 1 <= o <= n_start n + 1 + length x.
Definition on_end_name (n : node) (x : str) (o : nat) : Prop :=
  exists e, n_ets n = Some e /\ e + 2 <= o <= e + 2 + length x.
(** The text a range of a document covers. *)
Definition text_of (d : textdoc) (r : range) : str :=
  sub (d_text d) (offset_at d (r_start r)) (offset_at d (r_end r)).
(** No white space between '<' and the name, and between '</' and the name. *)
Definition tight (t : str) (n : node) : Prop :=
  (forall b, nth_error t (n_start n + 1) = Some b -> is_ws b = false) /\
  (forall e b, n_ets n = Some e -> nth_error t (e + 2) = Some b -> is_ws b = false).

(** ** Facts *)
Lemma find_at_innermost U t cs void roots o : Utf8 t -> parse U t cs void = Ok roots ->
  (find_node_at roots o = Ok None /\ forall n, ~ innermost roots o n) \/
  (exists n ps, find_node_at roots o = Ok (Some (n, ps)) /\ innermost roots o n /\
     forall m, innermost roots o m -> m = n).
Proof.
  intros HU HP. destruct (C23_find_node_at U t cs void roots o HU HP) as (r & E & H).
  destruct r as [[n ps]|].
  - right. exists n, ps. split; auto. destruct H as (P & C & F & D).
    assert (W : Forall (all_nodes nested) roots) by apply (parsed_wf _ _ _ _ _ HU HP).
    assert (AN : all_nodes nested n /\ Forall (fun x => n_start x < n_start n /\ n_end n <= n_end x) ps).
    { clear - P W. induction P as [l n I|l r ps n I P IH].
      - rewrite Forall_forall in W. auto.
      - rewrite Forall_forall in W. specialize (W r I). assert (W2 := W). inv W.
        specialize (IH H0) as [IH1 IH2]. split; auto. constructor; auto.
        apply path_in in P as [P _]. apply (preorder_bounds_strict r n W2 P). }
    destruct AN as [_ AN]. rewrite Forall_forall in AN.
    assert (IN : innermost roots o n).
    { split; [apply path_in in P; tauto|]. split; auto. intros m M Cm.
      assert (J : In m (ps ++ [n])).
      { rewrite <- F. apply filter_In. split; auto. lia. }
      apply in_app_iff in J as [J|[<-|[]]]; [|lia]. apply AN in J. lia. }
    split; auto. intros m (M1 & M2 & M3).
    assert (J : In m (ps ++ [n])).
    { rewrite <- F. apply filter_In. split; auto. lia. }
    apply in_app_iff in J as [J|[<-|[]]]; auto. apply AN in J.
    destruct IN as (I1 & I2 & _). specialize (M3 n I1 I2). lia.
  - left. split; auto. intros n (I & C & _). eapply H; eauto.
Qed.

Lemma node_names U t cs void roots n x : Utf8 t -> parse U t cs void = Ok roots ->
  In n (doc_nodes roots) -> n_tag n = Some x ->
  nth_error t (n_start n) = Some LT /\
  (exists p e, ws_run t (n_start n + 1) p /\ elem_name U t p e /\ x = sub t p e) /\
  (forall a, n_ets n = Some a ->
     exists y p e p2, is_prefix (bs "</") (skipn a t) = true /\ ws_run t (a + 2) p /\
       elem_name U t p e /\ y = sub t p e /\ same_name U cs (Some x) (Some y) /\ ws_run t e p2 /\
       ((nth_error t p2 = Some GT /\ n_end n = p2 + 1) \/ (nth_error t p2 = Some LT /\ n_end n = p2))).
Proof.
  intros HU HP I X. destruct (node_facts _ _ _ _ _ HU HP) as (l & T & F). destruct (F n I).
  split; auto. split.
  - destruct ok_tag as (p & W & M). rewrite X in M. destruct M as (e & M1 & M2). exists p, e. auto.
  - intros a A. destruct ok_close; try congruence. rewrite A in H0. inv H0.
    destruct H6 as (P & p & W & M). unfold is_same_tag in H7. rewrite X in H7.
    destruct name as [y|]; [|discriminate]. destruct M as (p1 & p2 & M1 & M2 & M3 & M4).
    exists y, p, p1, p2. split; auto. split; auto. split; auto. split; auto. split; auto.
    cbn in H7. apply beq_eq in H7. unfold norm in H7. cbn. destruct cs; auto.
Qed.

Lemma name_first U t p e : Utf8 t -> elem_name U t p e ->
  exists b, nth_error t p = Some b /\ is_ws b = false /\ b <> BANG /\ b <> SLASH /\ b <> GT /\ b <> LT.
Proof.
  intros HU H. pose proof (bd_elem U t HU _ _ H) as [B _]. destruct H as (H1 & H2 & _ & H4).
  apply m_element_name_some in H4 as (_ & _ & _ & c & w & D & F & _).
  destruct (Bd_char_at t p B) as (c' & C); [lia|].
  destruct (char_at_skipn _ _ _ C) as (Sc & r & Sr & Er). rewrite Er, decode1_encode in D by auto. inv D.
  rewrite encode_cons in Er. pose proof (encode1_nonempty _ Sc). destruct (encode1 c) as [|b r'] eqn:E; [cbn in *; lia|].
  exists b. assert (Nb : nth_error t p = Some b).
  { rewrite <- (Nat.add_0_r p), <- skipn_nth_error, Er. auto. }
  split; auto.
  destruct (N.lt_ge_cases b 128) as [L|L].
  - destruct (encode1_ascii c b r' Sc E L) as [-> _].
    unfold name_start_char, is_word in F. replace (b <? 128)%N with true in F by lia.
    unfold ascii_alnum, ascii_alpha, ascii_digit, ascii_upper_letter, ascii_lower_letter in F.
    unfold is_ws, BANG, SLASH, GT, LT. lia.
  - unfold is_ws, BANG, SLASH, GT, LT. lia.
Qed.

(** Positions of boundaries convert back. *)
Lemma range_text d a b : textdoc_ok d -> Bd (d_text d) a -> Bd (d_text d) b ->
  text_of d (range_at d a b) = sub (d_text d) a b /\
  offset_at d (r_start (range_at d a b)) = a /\ offset_at d (r_end (range_at d a b)) = b.
Proof.
  intros [] A B. unfold text_of, range_at. cbn [r_start r_end].
  rewrite !do_inv by (auto using Bd_le, Bd_boundary). auto.
Qed.
Lemma ws_run_end t a b : ws_run t a b -> (forall x, nth_error t a = Some x -> is_ws x = false) -> a = b.
Proof.
  intros (W1 & W2 & W3) N. destruct (Nat.eq_dec a b) as [|Q]; auto. exfalso.
  destruct (W3 a) as (x & X1 & X2); [lia|lia|]. apply N in X1. congruence.
Qed.

(** ** C28: rename *)
Section Tags.
Variables (U : unicode) (d : textdoc) (cs : bool) (void : list str) (roots : list node).
Hypothesis HD : textdoc_ok d.
Hypothesis HP : parse U (d_text d) cs void = Ok roots.
Let t := d_text d.
Let HU : Utf8 t := do_utf8 _ HD.

Theorem C28_rename : forall p new, exists r, do_rename d p new roots = Ok r /\
  match r with
  | Some edits => exists n x, innermost roots (offset_at d p) n /\ n_tag n = Some x /\
      (on_start_name n x (offset_at d p) \/ on_end_name n x (offset_at d p)) /\
      edits = (range_at d (n_start n + 1) (n_start n + 1 + length x), new) ::
              match n_ets n with
              | Some e => [(range_at d (e + 2) (e + 2 + length x), new)]
              | None => []
              end
  | None => forall n x, innermost roots (offset_at d p) n -> n_tag n = Some x ->
      ~ on_start_name n x (offset_at d p) /\ ~ on_end_name n x (offset_at d p)
  end.
Proof.
  intros p new. unfold do_rename. set (o := offset_at d p).
  destruct (find_at_innermost _ _ _ _ _ o HU HP) as [[-> N]|(n & ps & -> & I & Un)]; cbn [bind].
  - eexists. split; [reflexivity|]. intros n x H. exfalso. eapply N; eauto.
  - destruct (n_tag n) as [x|] eqn:X.
    + assert (R : is_within_tag_range n o x = true <-> on_start_name n x o \/ on_end_name n x o).
      { unfold is_within_tag_range, in_end_name, in_start_name, between, on_start_name, on_end_name.
        split.
        - intros H. apply orb_true_iff in H as [H|H]; [|left; lia]. right.
          destruct (n_ets n) as [e|]; [|discriminate]. exists e. split; auto. lia.
        - intros [H|(e & -> & H)]; apply orb_true_iff; [right; lia|left; lia]. }
      destruct (is_within_tag_range n o x); cbn [negb]; eexists; (split; [reflexivity|]).
      * exists n, x. split; auto. split; auto. split; [apply R; auto|]. auto.
      * intros m y M Y. apply Un in M. subst m. rewrite X in Y. inv Y.
        assert (Q : ~ (on_start_name n y o \/ on_end_name n y o)) by (rewrite <- R; discriminate). tauto.
    + eexists. split; [reflexivity|]. intros m y M Y. apply Un in M. subst m. congruence.
Qed.

Lemma tight_names n x : In n (doc_nodes roots) -> n_tag n = Some x -> tight t n ->
  sub t (n_start n + 1) (n_start n + 1 + length x) = x /\
  Bd t (n_start n + 1) /\ Bd t (n_start n + 1 + length x) /\
  forall a, n_ets n = Some a -> exists y p2, same_name U cs (Some x) (Some y) /\
    end_tag_written U t a (Some y) (n_end n) /\
    sub t (a + 2) (a + 2 + length y) = y /\ Bd t (a + 2) /\ Bd t (a + 2 + length y) /\
    a + 2 + length y <= p2 /\
    ((nth_error t p2 = Some GT /\ n_end n = p2 + 1) \/ (nth_error t p2 = Some LT /\ n_end n = p2)).
Proof.
  intros I X [T1 T2]. destruct (node_names _ _ _ _ _ _ _ HU HP I X) as (L & (p & e & W & N & E) & EN).
  apply ws_run_end in W; auto. subst p.
  destruct (bd_elem U t HU _ _ N) as [B1 B2]. assert (N' := N). destruct N' as (N1 & N2 & _).
  assert (Lx : length x = e - (n_start n + 1)) by (subst x; rewrite sub_length; lia).
  replace (n_start n + 1 + length x) with e by lia. split; auto. split; auto. split; auto.
  intros a A. destruct (EN a A) as (y & p' & e' & p2 & F1 & F2 & F3 & F4 & F5 & F6 & F7).
  assert (F2' := F2). apply ws_run_end in F2; [|intros b; apply T2; auto]. subst p'.
  destruct (bd_elem U t HU _ _ F3) as [B3 B4]. assert (N' := F3). destruct N' as (N3 & N4 & _).
  assert (Ly : length y = e' - (a + 2)) by (subst y; rewrite sub_length; lia).
  exists y, p2. replace (a + 2 + length y) with e' by lia. split; auto. split; [|].
  - split; [apply (prefix_text t (bs "</")); auto|]. exists (a + 2). split; auto. exists e', p2.
    split; [eapply elem_name_text; eauto|]. auto.
  - repeat split; auto. destruct F6; auto.
Qed.

(** In a node written without white space before its names, the replaced texts
    are the names, provided the two names have the same length. *)
Theorem C28_replaced_text : forall p new edits n x,
  do_rename d p new roots = Ok (Some edits) -> innermost roots (offset_at d p) n -> n_tag n = Some x ->
  tight t n ->
  match n_ets n with
  | None => map (fun e => (text_of d (fst e), snd e)) edits = [(x, new)]
  | Some a => exists y, end_tag_written U t a (Some y) (n_end n) /\ same_name U cs (Some x) (Some y) /\
      (length y = length x -> map (fun e => (text_of d (fst e), snd e)) edits = [(x, new); (y, new)])
  end.
Proof.
  intros p new edits n x H I X T. destruct (C28_rename p new) as (r & R1 & R2). rewrite H in R1.
  apply Ok_inj in R1. subst r. destruct R2 as (m & y & M & Y & _ & ->).
  destruct (find_at_innermost _ _ _ _ _ (offset_at d p) HU HP) as [[_ N]|(n' & ps & _ & _ & Un)]; [exfalso; eapply N; eauto|].
  assert (m = n) by (rewrite (Un n I); auto). subst m. rewrite X in Y. inv Y.
  destruct (tight_names n y (proj1 I) X T) as (A1 & A2 & A3 & A4).
  destruct (range_text d _ _ HD A2 A3) as (Q & _). fold t in Q. rewrite A1 in Q.
  destruct (n_ets n) as [a|] eqn:E.
  - destruct (A4 a eq_refl) as (z & p2 & Z1 & Z2 & Z3 & Z4 & Z5 & _). exists z. split; auto. split; auto.
    intros L. rewrite L in Z3, Z5. destruct (range_text d _ _ HD Z4 Z5) as (Q' & _). fold t in Q'.
    cbn [map fst snd]. rewrite Q, Q', Z3. auto.
  - cbn [map fst snd]. rewrite Q. auto.
Qed.

(** The lengths agree when names are compared case-sensitively and when both
    names are ASCII. *)
Theorem C28_same_length : forall x y, same_name U cs (Some x) (Some y) ->
  cs = true \/ (all_ascii x = true /\ all_ascii y = true) -> length y = length x.
Proof.
  intros x y H Q. cbn in H. destruct cs; [congruence|]. destruct Q as [Q|[Q1 Q2]]; [discriminate|].
  unfold lower in H. rewrite Q1, Q2 in H. apply (f_equal (@length N)) in H. rewrite !map_length in H. auto.
Qed.

(** ** C30: linked editing *)
Definition tag_length (n : node) : nat := match n_tag n with Some x => length x | None => 0 end.
Theorem C30_linked_editing : forall p, exists r, find_linked_editing_ranges d p roots = Ok r /\
  let o := offset_at d p in
  match r with
  | Some l => exists n a, innermost roots o n /\ n_ets n = Some a /\
      (n_start n + 1 <= o <= n_start n + 1 + tag_length n \/ a + 2 <= o <= a + 2 + tag_length n) /\
      l = [range_at d (n_start n + 1) (n_start n + 1 + tag_length n);
           range_at d (a + 2) (a + 2 + tag_length n)]
  | None => forall n a, innermost roots o n -> n_ets n = Some a ->
      ~ (n_start n + 1 <= o <= n_start n + 1 + tag_length n) /\ ~ (a + 2 <= o <= a + 2 + tag_length n)
  end.
Proof.
  intros p. unfold find_linked_editing_ranges. set (o := offset_at d p). cbv zeta.
  destruct (find_at_innermost _ _ _ _ _ o HU HP) as [[-> N]|(n & ps & -> & I & Un)]; cbn [bind].
  - eexists. split; [reflexivity|]. intros n x H. exfalso. eapply N; eauto.
  - fold (tag_length n). destruct (n_ets n) as [a|] eqn:A.
    + unfold in_start_name, in_end_name, between.
      destruct (_ || _) eqn:B; eexists; (split; [reflexivity|]).
      * exists n, a. split; auto. split; auto. split; [lia|auto].
      * intros m a' M A'. apply Un in M. subst m. rewrite A in A'. inv A'. lia.
    + eexists. split; [reflexivity|]. intros m a M A'. apply Un in M. subst m. congruence.
Qed.
(** In a tight node the two ranges cover the two names. *)
Theorem C30_names : forall p l n x a, find_linked_editing_ranges d p roots = Ok (Some l) ->
  innermost roots (offset_at d p) n -> n_tag n = Some x -> n_ets n = Some a -> tight t n ->
  exists y, end_tag_written U t a (Some y) (n_end n) /\ same_name U cs (Some x) (Some y) /\
    (length y = length x -> map (text_of d) l = [x; y]).
Proof.
  intros p l n x a H I X A T. destruct (C30_linked_editing p) as (r & R1 & R2). rewrite H in R1.
  apply Ok_inj in R1. subst r. cbv zeta in R2. destruct R2 as (m & a' & M & A' & _ & ->).
  destruct (find_at_innermost _ _ _ _ _ (offset_at d p) HU HP) as [[_ N]|(n' & ps & _ & _ & Un)]; [exfalso; eapply N; eauto|].
  assert (m = n) by (rewrite (Un n I); auto). subst m. rewrite A in A'. inv A'.
  unfold tag_length. rewrite X.
  destruct (tight_names n x (proj1 I) X T) as (A1 & A2 & A3 & A4).
  destruct (A4 a' A) as (y & p2 & Z1 & Z2 & Z3 & Z4 & Z5 & _). exists y. split; auto. split; auto.
  intros L. rewrite L in Z3, Z5. destruct (range_text d _ _ HD A2 A3) as (Q & _).
  destruct (range_text d _ _ HD Z4 Z5) as (Q' & _). cbn [map]. rewrite Q, Q'. fold t. rewrite A1, Z3. auto.
Qed.

(** ** C31: matching tag position *)
Theorem C31_matching : forall p, exists r, find_matching_tag_position d p roots = Ok r /\
  let o := offset_at d p in
  match r with
  | Some q => exists n x a, innermost roots o n /\ n_tag n = Some x /\ n_ets n = Some a /\
      ((on_start_name n x o /\ exists i, o = n_start n + 1 + i /\ q = position_at d (a + 2 + i)) \/
       (~ on_start_name n x o /\ on_end_name n x o /\
        exists i, o = a + 2 + i /\ q = position_at d (n_start n + 1 + i)))
  | None => forall n x a, innermost roots o n -> n_tag n = Some x -> n_ets n = Some a ->
      ~ on_start_name n x o /\ ~ on_end_name n x o
  end.
Proof.
  intros p. unfold find_matching_tag_position. set (o := offset_at d p). cbv zeta.
  destruct (find_at_innermost _ _ _ _ _ o HU HP) as [[-> N]|(n & ps & -> & I & Un)]; cbn [bind].
  - eexists. split; [reflexivity|]. intros n x a H. exfalso. eapply N; eauto.
  - destruct (n_tag n) as [x|] eqn:X.
    2:{ eexists. split; [reflexivity|]. intros m x a M Q. apply Un in M. congruence. }
    destruct (n_ets n) as [a|] eqn:A.
    2:{ eexists. split; [reflexivity|]. intros m y a M Q Q'. apply Un in M. congruence. }
    unfold in_start_name, in_end_name, between.
    destruct (_ && _) eqn:B1; [|destruct ((a + 2 <=? o) && _) eqn:B2].
    + unfold usub. replace (1 <=? o) with true by lia. cbn [bind].
      replace (n_start n <=? o - 1) with true by lia. cbn [bind].
      eexists. split; [reflexivity|]. exists n, x, a. split; auto. split; auto. split; auto. left.
      split; [unfold on_start_name; lia|]. exists (o - 1 - n_start n). split; [lia|]. f_equal. lia.
    + unfold usub. replace (2 <=? o) with true by lia. cbn [bind].
      replace (a <=? o - 2) with true by lia. cbn [bind].
      eexists. split; [reflexivity|]. exists n, x, a. split; auto. split; auto. split; auto. right.
      split; [unfold on_start_name; lia|]. split; [exists a; split; auto; lia|].
      exists (o - 2 - a). split; [lia|]. f_equal. lia.
    + eexists. split; [reflexivity|]. intros m y a' M Y A'. apply Un in M. subst m.
      rewrite X in Y. rewrite A in A'. inv Y. inv A'. unfold on_start_name, on_end_name. split; [lia|].
      intros (e & E & Q). rewrite A in E. inv E. lia.
Qed.

(** An offset inside a node but outside its content has the node as innermost. *)
Lemma innermost_tag n m a : In n (doc_nodes roots) -> n_ets n = Some a -> n_start n <= m < n_end n ->
  (forall s, n_ste n = Some s -> m < s) \/ a <= m -> innermost roots m n.
Proof.
  intros I A C G. split; auto. split; auto. intros k K Ck.
  destruct (C12_spans _ _ _ _ _ HU HP) as [_ SP]. rewrite Forall_forall in SP.
  pose proof (parsed_wf _ _ _ _ _ HU HP) as W.
  assert (AN : forall z, In z (doc_nodes roots) -> all_nodes nested z).
  { intros z Z. destruct W as [_ W]. apply in_flat_map in Z as (r & R & Z).
    rewrite Forall_forall in W. specialize (W r R). apply all_nodes_of_preorder.
    apply all_nodes_preorder in W. rewrite Forall_forall in *. intros y Y. apply W.
    clear - Z Y. revert r Z. refine (node_induction (fun r => In z (preorder r) -> In y (preorder r)) _).
    intros r IH Z. rewrite preorder_eq in Z. destruct Z as [->|Z]; auto.
    rewrite preorder_eq. right. apply in_flat_map in Z as (c & C & Z). apply in_flat_map. exists c.
    split; auto. rewrite Forall_forall in IH. apply IH; auto. }
  destruct (laminar_nodes roots W n k I K) as [->|[L|[L|[L|L]]]]; [lia| | |lia|lia].
  - pose proof (preorder_bounds_strict k n (AN k K) L). lia.
  - exfalso. apply in_flat_map in L as (c & Hc & L).
    assert (ANc : all_nodes nested c).
    { pose proof (AN n I) as Q. inv Q. rewrite Forall_forall in H0. auto. }
    pose proof (preorder_bounds c ANc k L) as PB. specialize (SP n I).
    destruct SP as (S1 & S2 & S3). rewrite A in S3. destruct (n_ste n) as [s|] eqn:S; [|contradiction].
    destruct S3 as (S3 & S4 & S5 & S6). pose proof (chain_bounds _ _ _ _ S6 Hc). 
    destruct G as [G|G]; [specialize (G s eq_refl); lia|lia].
Qed.
Lemma boundary_in a x i : Bd t a -> Bd t (a + length x) -> sub t a (a + length x) = x -> i <= length x ->
  is_boundary t (a + i) = is_boundary x i.
Proof.
  intros B1 B2 E L. pose proof (Bd_boundary _ _ B1) as C1. pose proof (Bd_boundary _ _ B2) as C2.
  pose proof (Bd_le _ _ B2) as L2.
  destruct (Nat.eq_dec i 0) as [->|N0]; [rewrite Nat.add_0_r, C1; auto|].
  destruct (Nat.eq_dec i (length x)) as [->|N1]; [rewrite C2; unfold is_boundary; rewrite Nat.eqb_refl, orb_true_r; auto|].
  unfold is_boundary. replace (a + i =? 0) with false by lia. replace (i =? 0) with false by lia.
  replace (a + i =? length t) with false by lia. replace (i =? length x) with false by lia.
  replace (nth_error x i) with (nth_error t (a + i)); auto.
  rewrite <- E at 1. rewrite sub_nth_error by lia. auto.
Qed.

(** The two names are laid out alike: same length, character boundaries at the
    same places. *)
Definition alike (x y : str) : Prop :=
  length x = length y /\ forall i, is_boundary x i = is_boundary y i.
Theorem C31_involution : forall p q n x a, find_matching_tag_position d p roots = Ok (Some q) ->
  innermost roots (offset_at d p) n -> n_tag n = Some x -> n_ets n = Some a -> tight t n ->
  (forall y, end_tag_written U t a (Some y) (n_end n) -> alike x y) ->
  (* the end tag goes on after its name *)
  a + 2 + length x < n_end n ->
  find_matching_tag_position d q roots = Ok (Some (position_at d (offset_at d p))).
Proof.
  intros p q n x a H I X A T EW G. set (o := offset_at d p) in *.
  destruct (C31_matching p) as (r & R1 & R2). fold o in R2. rewrite H in R1. apply Ok_inj in R1. subst r.
  cbv zeta in R2. destruct R2 as (m & x' & a' & M & X' & A' & Q).
  destruct (find_at_innermost _ _ _ _ _ o HU HP) as [[_ N]|(n' & ps & _ & _ & Un)]; [exfalso; eapply N; eauto|].
  assert (m = n) by (rewrite (Un n I); auto). subst m. rewrite X in X'. inv X'. rewrite A in A'. inv A'.
  rename x' into x. rename a' into a.
  destruct (tight_names n x (proj1 I) X T) as (A1 & A2 & A3 & A4).
  destruct (A4 a A) as (y & p2 & Z1 & Z2 & Z3 & Z4 & Z5 & Z6 & Z7).
  destruct (EW y Z2) as [AL AB]. rewrite <- AL in *.
  destruct (node_facts _ _ _ _ _ HU HP) as (l & TK & _).
  destruct (C12_spans _ _ _ _ _ HU HP) as [_ SP]. rewrite Forall_forall in SP. specialize (SP n (proj1 I)).
  destruct SP as (S1 & S2 & S3). rewrite A in S3. destruct (n_ste n) as [s|] eqn:S; [|contradiction].
  destruct S3 as (S3 & S4 & S5 & _).
  destruct (start_tag_room _ _ _ _ _ _ _ HU TK HP (proj1 I) s S) as [_ RM]. specialize (RM x X).
  assert (BO : Bd t o) by (destruct (do_offset _ HD p); apply boundary_Bd; auto).
  assert (BX : forall i, i <= length x -> is_boundary t (n_start n + 1 + i) = is_boundary t (a + 2 + i)).
  { intros i L. rewrite (boundary_in (n_start n + 1) x i), (boundary_in (a + 2) y i), AB by (rewrite <- ?AL; auto). auto. }
  assert (GO : forall m, Bd t m -> innermost roots m n -> q = position_at d m ->
     (on_start_name n x m -> o = a + 2 + (m - (n_start n + 1))) ->
     (~ on_start_name n x m -> on_end_name n x m /\ o = n_start n + 1 + (m - (a + 2))) ->
     find_matching_tag_position d q roots = Ok (Some (position_at d o))).
  { intros m Bm Im -> K1 K2. destruct (C31_matching (position_at d m)) as (r & R1 & R2). cbv zeta in R2.
    rewrite (do_inv _ HD m) in R2 by (apply Bd_le in Bm as ?; apply Bd_boundary in Bm; auto).
    rewrite R1. f_equal.
    destruct (find_at_innermost _ _ _ _ _ m HU HP) as [[_ N2]|(n2 & ps2 & _ & _ & Un2)]; [exfalso; eapply N2; eauto|].
    destruct r as [z|].
    - destruct R2 as (k & x' & a' & M' & X' & A' & [(O1 & i & O2 & ->)|(O1 & O2 & i & O3 & ->)]);
        (assert (k = n) by (rewrite (Un2 n Im); auto)); subst k; rewrite X in X'; rewrite A in A'; inv X'; inv A'.
      + rewrite (K1 O1). f_equal. f_equal. lia.
      + destruct (K2 O1) as [_ E]. rewrite E. f_equal. f_equal. lia.
    - exfalso. destruct (R2 n x a Im X A) as [O1 O2]. destruct (K2 O1). auto. }
  destruct Q as [(O1 & i & O2 & O3)|(O1 & O2 & i & O3 & O4)]; unfold on_start_name in O1.
  - apply (GO (a + 2 + i)); auto.
    + apply boundary_Bd; auto; [lia|]. rewrite <- BX by lia. rewrite <- O2. apply Bd_boundary. auto.
    + apply innermost_tag with (a := a); auto; [apply I|lia|]. right. lia.
    + unfold on_start_name. lia.
    + intros _. split; [exists a; split; auto; lia|lia].
  - destruct O2 as (a' & A' & O2). rewrite A in A'. inv A'. rename a' into a.
    assert (i <= length x) by lia. apply (GO (n_start n + 1 + i)); auto.
    + apply boundary_Bd; auto; [lia|]. rewrite BX by lia. rewrite <- O3. apply Bd_boundary. auto.
    + apply innermost_tag with (a := a); auto; [apply I|lia|]. left. intros s' S'. rewrite S in S'. inv S'. lia.
    + intros _. lia.
    + intros K. exfalso. apply K. unfold on_start_name. lia.
Qed.
(** Names written the same way, and ASCII names, are laid out alike. *)
Lemma ascii_boundary x i : all_ascii x = true -> is_boundary x i = (i <=? length x).
Proof.
  intros H. unfold is_boundary. destruct (nth_error x i) as [b|] eqn:E.
  - pose proof (nth_error_lt _ _ _ E). apply nth_error_In in E. unfold all_ascii in H. rewrite forallb_forall in H.
    apply H in E. unfold is_cont. replace (128 <=? b)%N with false by lia. cbn [andb negb].
    rewrite orb_true_r. symmetry. lia.
  - apply nth_error_None in E. rewrite orb_false_r.
    destruct (Nat.eq_dec i (length x)) as [->|N].
    + rewrite Nat.eqb_refl, orb_true_r. symmetry. lia.
    + replace (i =? 0) with false by lia. replace (i =? length x) with false by lia. symmetry. cbn. lia.
Qed.
Theorem C31_alike : forall x y, same_name U cs (Some x) (Some y) ->
  cs = true \/ (all_ascii x = true /\ all_ascii y = true) -> alike x y.
Proof.
  intros x y H Q. pose proof (C28_same_length x y H Q) as L. split; auto. intros i.
  destruct Q as [Q|[Q1 Q2]].
  - rewrite Q in H. cbn in H. congruence.
  - rewrite !ascii_boundary, L by auto. auto.
Qed.

(** ** C32: highlights *)
(** The name of the start tag of [n] is at [p, e). *)
Definition start_name_at (n : node) (p e : nat) : Prop :=
  ws_run t (n_start n + 1) p /\ name_text U t p e /\ n_tag n = Some (sub t p e).
(** The name of its end tag, which starts at [a], is at [p, e). *)
Definition end_name_at (a p e : nat) : Prop :=
  sub t a (a + 2) = bs "</" /\ ws_run t (a + 2) p /\ name_text U t p e.

Lemma next_name p e : elem_name U t p e ->
  exists z, next_element_name U t cs p = Ok (Some (z, e)).
Proof.
  intros (H1 & H2 & H3 & H4). unfold next_element_name, name_of, adv_if_regexp.
  rewrite slice_rest_ok by (auto; lia). cbn [bind]. rewrite H4. cbn [bind].
  eexists. do 3 f_equal. lia.
Qed.
Lemma no_name_ws p b : nth_error t p = Some b -> is_ws b = true -> next_element_name U t cs p = Ok None.
Proof.
  intros H W. unfold next_element_name, name_of, adv_if_regexp.
  assert (b < 128)%N by (unfold is_ws in W; lia).
  rewrite slice_rest_ok.
  - cbn [bind]. rewrite (skipn_cons _ _ _ H). unfold m_element_name, decode1.
    replace (b <? 128)%N with true by lia.
    replace (name_start_char U b) with false; auto. symmetry. unfold name_start_char, is_word.
    replace (b <? 128)%N with true by lia.
    unfold ascii_alnum, ascii_alpha, ascii_digit, ascii_upper_letter, ascii_lower_letter.
    unfold is_ws in W. lia.
  - apply nth_error_lt in H. lia.
  - eapply boundary_byte; eauto.
Qed.
Lemma skip_ws_run a p b : ws_run t a p -> a < p -> nth_error t p = Some b -> is_ws b = false ->
  skip_ws t a = Some p.
Proof.
  intros (W1 & W2 & W3) L B NB. destruct (skip_ws t a) as [q|] eqn:E.
  - apply skip_ws_some in E as (E1 & E2 & E3 & E4). f_equal.
    destruct (Nat.lt_trichotomy q p) as [C|[C|C]]; auto; exfalso.
    + destruct (W3 q) as (x & X1 & X2); [lia|lia|]. apply E4 in X1. congruence.
    + destruct (E3 p) as (x & X1 & X2); [lia|lia|]. congruence.
  - exfalso. destruct (W3 a) as (x & X1 & X2); [lia|lia|]. eapply skip_ws_none in E; eauto. congruence.
Qed.
Lemma eos_lt p b : nth_error t p = Some b -> eos t p = false.
Proof. intros H. apply nth_error_lt in H. unfold eos. lia. Qed.

(** Reading a tag name after '<' or '</'. *)
Lemma scan_to_name (starting : bool) fuel sc a p e :
  st sc = (if starting then AfterOpeningStartTag else AfterOpeningEndTag) -> pos sc = a ->
  ws_run t a p -> elem_name U t p e ->
  scan_to U t cs (S (S fuel)) (if starting then StartTag else EndTag) sc = Ok (Some (p, e)).
Proof.
  intros S P W N. destruct (name_first U t p e HU N) as (b & B & NB & _).
  assert (NAME : forall sc fuel, st sc = (if starting then AfterOpeningStartTag else AfterOpeningEndTag) -> pos sc = p ->
    scan_to U t cs (Datatypes.S fuel) (if starting then StartTag else EndTag) sc = Ok (Some (p, e))).
  { clear sc fuel S P. intros sc fuel S P. cbn [scan_to]. rewrite (scan_internal U t false cs HU).
    unfold internal_scan. rewrite S. destruct (next_name p e N) as (z & Z). destruct starting.
    - unfold scan_after_opening_start_tag, eos_or. rewrite P, (eos_lt _ _ B), Z. reflexivity.
    - unfold scan_after_opening_end_tag, eos_or. rewrite P, (eos_lt _ _ B), Z. reflexivity. }
  destruct (Nat.eq_dec a p) as [->|L]; [apply NAME; auto|].
  assert (LT' : a < p) by (destruct W; lia).
  destruct W as (W1 & W2 & W3). destruct (W3 a) as (x & X1 & X2); [lia|lia|].
  pose proof (skip_ws_run a p b (conj W1 (conj W2 W3)) LT' B NB) as K.
  cbn [scan_to]. rewrite (scan_internal U t false cs HU).
  unfold internal_scan. rewrite S. destruct starting.
  - unfold scan_after_opening_start_tag at 1, eos_or. rewrite P, (eos_lt _ _ X1), (no_name_ws _ _ X1 X2).
    cbn [bind option_map]. rewrite K. cbn [bind].
    set (sc' := finish _ _ _ _ _ _). change (tok sc') with Whitespace.
    change (token_eqb Whitespace EOS) with false. change (token_eqb Whitespace StartTag) with false. cbn iota.
    apply (NAME sc'); auto.
  - unfold scan_after_opening_end_tag at 1, eos_or. rewrite P, (eos_lt _ _ X1), (no_name_ws _ _ X1 X2).
    cbn [bind option_map]. rewrite K. cbn [bind].
    set (sc' := finish _ _ _ _ _ _). change (tok sc') with Whitespace.
    change (token_eqb Whitespace EOS) with false. change (token_eqb Whitespace EndTag) with false. cbn iota.
    apply (NAME sc'); auto.
Qed.
Lemma range_start_name s p e : nth_error t s = Some LT -> ws_run t (s + 1) p -> elem_name U t p e ->
  get_tag_name_range U d cs StartTag s = Ok (Some (range_at d p e)).
Proof.
  intros L W N. unfold get_tag_name_range. fold t.
  destruct (name_first U t p e HU N) as (b & B & NB & NB1 & NB2 & NB3 & NB4).
  assert (B1 : exists c, nth_error t (s + 1) = Some c /\ c <> BANG /\ c <> SLASH).
  { destruct (Nat.eq_dec (s + 1) p) as [->|Q]; [eauto|].
    destruct W as (W1 & W2 & W3). destruct (W3 (s + 1)) as (x & X1 & X2); [lia|lia|].
    exists x. split; auto. unfold is_ws in X2. unfold BANG, SLASH. lia. }
  destruct B1 as (c & C & C1 & C2).
  assert (LF : exists f, scan_fuel t = Datatypes.S (Datatypes.S (Datatypes.S f))).
  { pose proof (nth_error_lt _ _ _ L). unfold scan_fuel. exists (2 * length t - 1). lia. }
  destruct LF as (f & ->). 
  enough (E : scan_to U t cs (Datatypes.S (Datatypes.S (Datatypes.S f))) StartTag (scanner_new s WithinContent) = Ok (Some (p, e))).
  { rewrite E. reflexivity. }
  cbn [scan_to]. rewrite (scan_internal U t false cs HU).
  unfold internal_scan. cbn [st scanner_new]. unfold scan_content at 1, eos_or. cbn [pos scanner_new].
  rewrite (eos_lt _ _ L). unfold adv_if_char at 1, peek_is at 1, peek. rewrite L.
  rewrite N.eqb_refl. unfold peek_is, peek. rewrite C. replace (N.eqb c BANG) with false by lia.
  rewrite andb_false_r. unfold adv_if_char, peek_is, peek. rewrite C. replace (N.eqb c SLASH) with false by lia.
  cbn [bind]. set (sc' := finish _ _ _ _ _ _). change (tok sc') with StartTagOpen.
  change (token_eqb StartTagOpen EOS) with false. change (token_eqb StartTagOpen StartTag) with false. cbn iota.
  apply (scan_to_name true f sc' (s + 1) p e); auto.
Qed.
Lemma range_end_name s p e : is_prefix (bs "</") (skipn s t) = true -> ws_run t (s + 2) p -> elem_name U t p e ->
  get_tag_name_range U d cs EndTag s = Ok (Some (range_at d p e)).
Proof.
  intros L W N. unfold get_tag_name_range. fold t.
  assert (L1 : nth_error t s = Some LT /\ nth_error t (s + 1) = Some SLASH).
  { apply is_prefix_spec in L as (r & R). rewrite <- (Nat.add_0_r s) at 1. rewrite <- !skipn_nth_error, R. auto. }
  destruct L1 as [L1 L2].
  assert (LF : exists f, scan_fuel t = Datatypes.S (Datatypes.S (Datatypes.S f))).
  { pose proof (nth_error_lt _ _ _ L1). unfold scan_fuel. exists (2 * length t - 1). lia. }
  destruct LF as (f & ->). 
  enough (E : scan_to U t cs (Datatypes.S (Datatypes.S (Datatypes.S f))) EndTag (scanner_new s WithinContent) = Ok (Some (p, e))).
  { rewrite E. reflexivity. }
  cbn [scan_to]. rewrite (scan_internal U t false cs HU).
  unfold internal_scan. cbn [st scanner_new]. unfold scan_content at 1, eos_or. cbn [pos scanner_new].
  rewrite (eos_lt _ _ L1). unfold adv_if_char at 1, peek_is at 1, peek. rewrite L1.
  rewrite N.eqb_refl. unfold peek_is, peek. rewrite L2. change (N.eqb SLASH BANG) with false.
  rewrite andb_false_r. unfold adv_if_char, peek_is, peek. rewrite L2. rewrite N.eqb_refl.
  cbn [bind]. set (sc' := finish _ _ _ _ _ _). change (tok sc') with EndTagOpen.
  change (token_eqb EndTagOpen EOS) with false. change (token_eqb EndTagOpen EndTag) with false. cbn iota.
  apply (scan_to_name false f sc' (s + 2) p e); auto. cbn. lia.
Qed.

(** The cursor [p] touches the range. *)
Definition touches (r : range) (p : position) : Prop := pos_le (r_start r) p /\ pos_le p (r_end r).
Lemma covers_touches r p : covers r p = true <-> touches r p.
Proof.
  unfold covers, touches, is_before_or_equal, pos_le, pos_lt. destruct r as [[a b] [e f]], p as [x y].
  cbn [r_start r_end line character]. rewrite andb_true_iff, !orb_true_iff, !andb_true_iff, !Nat.ltb_lt, !Nat.eqb_eq, !Nat.leb_le.
  assert (E : forall u v u' v', mkPos u v = mkPos u' v' <-> u = u' /\ v = v').
  { intros. split; [intros Q; inv Q; auto|intros [-> ->]; auto]. }
  rewrite !E. lia.
Qed.
Theorem C32_highlights : forall p, exists r, find_document_highlights U d p roots cs = Ok r /\
  ((forall n, innermost roots (offset_at d p) n -> n_tag n = None) -> r = []) /\
  forall n x, innermost roots (offset_at d p) n -> n_tag n = Some x ->
    exists names, 
      (* the name in the start tag and, if there is one, in the end tag *)
      (exists b e, start_name_at n b e /\
        match n_ets n with
        | None => names = [range_at d b e]
        | Some a => exists b' e', end_name_at a b' e' /\ names = [range_at d b e; range_at d b' e']
        end) /\
      ((Exists (fun r => touches r p) names /\ r = names) \/
       (~ Exists (fun r => touches r p) names /\ r = [])).
Proof.
  intros p. unfold find_document_highlights. set (o := offset_at d p).
  destruct (find_at_innermost _ _ _ _ _ o HU HP) as [[-> N]|(n & ps & -> & I & Un)]; cbn [bind].
  { eexists. split; [reflexivity|]. split; auto. intros n x H. exfalso. eapply N; eauto. }
  destruct (n_tag n) as [x|] eqn:X.
  2:{ eexists. split; [reflexivity|]. split; auto. intros m x M Q. apply Un in M. congruence. }
  destruct (node_names _ _ _ _ _ _ _ HU HP (proj1 I) X) as (L & (b & e & W & N & E) & EN).
  rewrite (range_start_name _ _ _ L W N). cbn [bind]. unfold is_self_closing.
  assert (SN : start_name_at n b e).
  { split; auto. split; [eapply elem_name_text; eauto|]. congruence. }
  destruct (n_ets n) as [a|] eqn:A.
  - destruct (EN a eq_refl) as (y & b' & e' & p2 & F1 & F2 & F3 & F4 & _).
    cbn [unwrap bind]. rewrite (range_end_name _ _ _ F1 F2 F3). cbn [bind opt_covers opt_list app].
    assert (CV : covers (range_at d b e) p || covers (range_at d b' e') p = true <->
      Exists (fun r => touches r p) [range_at d b e; range_at d b' e']).
    { rewrite orb_true_iff, !covers_touches, !Exists_cons, Exists_nil. tauto. }
    destruct (_ || _); (eexists; split; [reflexivity|]; split; [intros Q; specialize (Q n I); congruence|]);
      intros m x' M X'; apply Un in M; subst m; exists [range_at d b e; range_at d b' e'];
      (split; [exists b, e; split; auto; rewrite A; exists b', e'; split; auto;
               split; [apply (prefix_text t (bs "</")); auto|]; split; auto; eapply elem_name_text; eauto|]).
    + left. split; auto. apply CV. auto.
    + right. split; auto. rewrite <- CV. discriminate.
  - cbn [bind opt_covers opt_list app]. rewrite orb_false_r.
    assert (CV : covers (range_at d b e) p = true <-> Exists (fun r => touches r p) [range_at d b e]).
    { rewrite !covers_touches, !Exists_cons, Exists_nil. tauto. }
    destruct (covers _ _); (eexists; split; [reflexivity|]; split; [intros Q; specialize (Q n I); congruence|]);
      intros m x' M X'; apply Un in M; subst m; exists [range_at d b e];
      (split; [exists b, e; split; auto; rewrite A; auto|]).
    + left. split; auto. apply CV. auto.
    + right. split; auto. rewrite <- CV. discriminate.
Qed.

(** Nodes start and end on character boundaries. *)
Lemma sub_last_ascii a b s c : sub t a b = s ++ [c] -> (c < 128)%N -> a <= b -> b <= length t -> Bd t b.
Proof.
  intros E L A B. pose proof (f_equal (@length N) E) as Q. rewrite sub_length, app_length in Q by auto.
  cbn in Q. replace b with (b - 1 + 1) by lia. eapply Bd_after_ascii; eauto.
  replace (b - 1) with (a + length s) by lia. rewrite <- (sub_nth_error t a b) by lia.
  rewrite E, nth_error_app2, Nat.sub_diag by lia. auto.
Qed.
Lemma ended_bd l n ty : doc_tokens U t cs = Ok l -> ended l n ty -> n_ste n = Some (n_end n) ->
  ty = StartTagSelfClose \/ ty = StartTagClose -> Bd t (n_end n).
Proof.
  intros T (k & K & K1 & K2 & K3) S TY. rewrite S in K3. inv K3.
  pose proof (doc_tiles _ _ _ _ HU T) as TL. pose proof (tiles_bounds _ _ _ _ TL K) as TB.
  assert (SH : token_shape U t true k).
  { unfold doc_tokens in T. apply bind_ok in T as ([l' f] & T & E). inv E.
    assert (F : Forall (token_shape U t true) l).
    { revert T. apply tokens_forall. intros a b. apply scan_shape. auto. }
    rewrite Forall_forall in F. auto. }
  unfold token_shape in SH. cbv zeta in SH. rewrite H0. destruct TY as [E|E]; rewrite E in SH.
  - apply (sub_last_ascii _ _ [SLASH] GT SH); [reflexivity|lia|lia].
  - destruct SH as [SH|(_ & Q & _)]; [|lia].
    apply (sub_last_ascii _ _ [] GT SH); [reflexivity|lia|lia].
Qed.
Lemma prefix_bd p : is_prefix (bs "</") (skipn p t) = true -> Bd t p.
Proof.
  intros H. apply is_prefix_spec in H as (r & R). apply (Bd_at_ascii t p LT); auto; [|reflexivity].
  rewrite <- (Nat.add_0_r p). rewrite <- skipn_nth_error, R. auto.
Qed.
Lemma node_bd n : In n (doc_nodes roots) -> Bd t (n_start n) /\ Bd t (n_end n).
Proof.
  intros I. destruct (node_facts _ _ _ _ _ HU HP) as (l & T & F). destruct (F n I). split.
  - eapply Bd_at_ascii; eauto. reflexivity.
  - destruct ok_close.
    + destruct H6 as (_ & p & _ & M). destruct name.
      * destruct M as (p1 & p2 & _ & _ & _ & [[M M']|[M M']]); rewrite M'.
        -- eapply Bd_after_ascii; eauto. reflexivity.
        -- eapply Bd_at_ascii; eauto. reflexivity.
      * destruct M as (_ & p2 & _ & M & ->). eapply Bd_after_ascii; eauto. reflexivity.
    + eapply ended_bd; eauto.
    + eapply ended_bd; eauto.
    + destruct H5 as [->|H5]; [apply Bd_len; auto|]. apply prefix_bd. auto.
    + destruct H3 as [->|H3]; [apply Bd_len; auto|]. eapply Bd_at_ascii; eauto. reflexivity.
Qed.
Lemma pos_mono a b : Bd t a -> Bd t b -> a <= b -> pos_le (position_at d a) (position_at d b).
Proof.
  intros A B L. destruct (Nat.eq_dec a b) as [->|N]; [left; auto|]. right.
  apply (do_mono _ HD); [lia|apply Bd_le in B; auto|apply Bd_boundary; auto|apply Bd_boundary; auto].
Qed.

(** ** C33: symbols *)
(** A symbol mirrors a node: same name and span, children mirroring children in
    order. *)
Inductive mirrors : node -> symbol -> Prop :=
| mirrors_intro n s :
    s_name s = node_to_name n -> s_range s = range_at d (n_start n) (n_end n) ->
    s_selection s = s_range s -> Forall2 mirrors (n_children n) (s_children s) -> mirrors n s.
Theorem C33_symbols_nested : Forall2 mirrors roots (find_document_symbols2 d roots).
Proof.
  assert (M : forall n, mirrors n (node_symbol d n)).
  { apply node_induction. intros n IH. constructor; destruct n; cbn in *; auto.
    induction IH; cbn [map]; constructor; auto. }
  clear HP. unfold find_document_symbols2. induction roots; cbn [map]; constructor; auto.
Qed.
(** The range of a symbol lies in the range of the symbol it is nested in. *)
Theorem C33_ranges_nested : forall n c, In n (doc_nodes roots) -> In c (n_children n) ->
  let r := s_range (node_symbol d n) in let r' := s_range (node_symbol d c) in
  pos_le (r_start r) (r_start r') /\ pos_lt (r_start r') (r_end r') /\ pos_le (r_end r') (r_end r).
Proof.
  intros n c I C r r'. 
  assert (Ic : In c (doc_nodes roots)).
  { apply in_flat_map in I as (x & X & I). apply in_flat_map. exists x. split; auto. clear - I C.
    revert x I. refine (node_induction (fun x => In n (preorder x) -> In c (preorder x)) _).
    intros x IH I. rewrite preorder_eq in I |- *. right. destruct I as [->|I].
    - apply in_flat_map. exists c. rewrite preorder_eq. cbn. auto.
    - apply in_flat_map in I as (y & Y & I). apply in_flat_map. exists y. split; auto.
      rewrite Forall_forall in IH. auto. }
  pose proof (parsed_wf _ _ _ _ _ HU HP) as W.
  destruct (C12_spans _ _ _ _ _ HU HP) as [_ SP]. rewrite Forall_forall in SP.
  pose proof (SP n I) as Sn. apply span_nested in Sn as [_ Sn]. pose proof (chain_bounds _ _ _ _ Sn C) as B.
  destruct (node_bd n I) as [B1 B2]. destruct (node_bd c Ic) as [B3 B4].
  unfold r, r'. destruct n, c. cbn [node_symbol s_range range_at r_start r_end] in *. cbn in B, B1, B2, B3, B4. split; [|split].
  - apply pos_mono; auto. lia.
  - apply (do_mono _ HD); [lia|apply Bd_le in B4; auto|apply Bd_boundary; auto|apply Bd_boundary; auto].
  - apply pos_mono; auto. lia.
Qed.

(** The flat list: one entry per node in document order, with the name of the
    parent (the last of its ancestors) as container. *)
Definition flat_entry (n : node) (i : symbol_info) : Prop :=
  i_name i = node_to_name n /\ i_range i = range_at d (n_start n) (n_end n) /\
  exists ps, path roots ps n /\ i_container i = option_map node_to_name (last (map Some ps) None).
Lemma walk_eq par s : walk par s = mkInfo (s_name s) (s_range s) par :: flat_map (walk (Some (s_name s))) (s_children s).
Proof. destruct s. reflexivity. Qed.
Lemma node_symbol_eq n : node_symbol d n =
  mkSymbol (node_to_name n) (range_at d (n_start n) (n_end n)) (range_at d (n_start n) (n_end n)) (map (node_symbol d) (n_children n)).
Proof. destruct n. reflexivity. Qed.
Lemma path_snoc l ps n c : path l ps n -> In c (n_children n) -> path l (ps ++ [n]) c.
Proof.
  induction 1 as [l n I|l r ps n I P IH]; intros C; cbn [app].
  - apply path_child; auto. apply path_root. auto.
  - apply path_child; auto.
Qed.
Lemma last_snoc {A} (l : list A) x : last (map Some (l ++ [x])) None = Some x.
Proof. rewrite map_app. cbn. apply last_last. Qed.
Lemma walk_flat n : forall ps, path roots ps n ->
  Forall2 flat_entry (preorder n) (walk (option_map node_to_name (last (map Some ps) None)) (node_symbol d n)).
Proof.
  revert n. refine (node_induction _ _). intros n IH ps P. rewrite preorder_eq, walk_eq, node_symbol_eq.
  cbn [s_name s_range s_children]. constructor; [repeat split; cbn; eauto|].
  assert (K : forall l, incl l (n_children n) ->
    Forall2 flat_entry (flat_map preorder l) (flat_map (walk (Some (node_to_name n))) (map (node_symbol d) l))).
  { induction l as [|c l IHl]; intros IN; cbn [flat_map map]; [constructor|].
    apply Forall2_app; [|apply IHl; intros z Z; apply IN; right; auto].
    rewrite Forall_forall in IH. assert (C : In c (n_children n)) by (apply IN; cbn; auto).
    pose proof (IH c C (ps ++ [n]) (path_snoc _ _ _ _ P C)) as Q. rewrite last_snoc in Q. exact Q. }
  apply K. apply incl_refl.
Qed.
Theorem C33_symbols_flat : Forall2 flat_entry (doc_nodes roots) (find_document_symbols d roots).
Proof.
  unfold doc_nodes, find_document_symbols, find_document_symbols2.
  assert (K : forall l, incl l roots ->
    Forall2 flat_entry (flat_map preorder l) (flat_map (walk None) (map (node_symbol d) l))).
  { induction l as [|c l IHl]; intros IN; cbn [flat_map map]; [constructor|].
    apply Forall2_app; [|apply IHl; intros z Z; apply IN; right; auto].
    apply (walk_flat c []). apply path_root. apply IN. cbn. auto. }
  apply K. apply incl_refl.
Qed.
End Tags.

(** Names of symbols. [words s ws]: [ws] are the maximal runs of [s] without
    white space. *)
Inductive words : str -> list str -> Prop :=
| words_nil : words [] []
| words_space b s ws : is_ws b = true -> words s ws -> words (b :: s) ws
| words_word w s ws : w <> [] -> Forall (fun b => is_ws b = false) w ->
    (forall b r, s = b :: r -> is_ws b = true) -> words s ws -> words (w ++ s) (w :: ws).
Lemma split_ws_words s : forall w, Forall (fun b => is_ws b = false) w -> words (rev w ++ s) (split_ws w s).
Proof.
  induction s as [|b s IH]; intros w W; cbn [split_ws].
  - destruct w as [|x w]; [constructor|]. apply words_word; [|apply Forall_rev; auto| |constructor].
    + intros Q. apply (f_equal (@length N)) in Q. rewrite rev_length in Q. discriminate.
    + discriminate.
  - destruct (is_ws b) eqn:B.
    + destruct w as [|x w]; [constructor; auto; apply (IH []); auto|].
      apply words_word; [|apply Forall_rev; auto| |].
      * intros Q. apply (f_equal (@length N)) in Q. rewrite rev_length in Q. discriminate.
      * intros b' r Q. inv Q. auto.
      * constructor; auto. apply (IH []). auto.
    + specialize (IH (b :: w)). cbn [rev] in IH. rewrite <- app_assoc in IH. apply IH. constructor; auto.
Qed.
(** A value without its quote characters. *)
Definition bare (v : str) : str := filter (fun b => negb (N.eqb b DQUOTE) && negb (N.eqb b SQUOTE)) v.
Lemma bare_eq v : remove_byte SQUOTE (remove_byte DQUOTE v) = bare v.
Proof.
  unfold remove_byte, bare. induction v as [|b v IH]; auto. cbn [filter].
  destruct (N.eqb b DQUOTE) eqn:E; cbn [negb andb filter]; auto.
  destruct (N.eqb b SQUOTE); cbn [negb]; rewrite IH; auto.
Qed.
Definition attr_value (n : node) (k : str) : option str :=
  match attr_get k (n_attrs n) with Some a => a_value a | None => None end.
Theorem C33_names : forall n,
  (n_tag n = None -> node_to_name n = bs "?") /\
  forall x, n_tag n = Some x -> exists id_part class_part,
    node_to_name n = x ++ id_part ++ class_part /\
    id_part = match attr_value n (bs "id") with Some v => bs "#" ++ bare v | None => [] end /\
    match attr_value n (bs "class") with
    | Some v => exists ws, words (bare v) ws /\ class_part = concat (map (fun w => bs "." ++ w) ws)
    | None => class_part = []
    end.
Proof.
  intros n. unfold node_to_name. split; [intros ->; auto|]. intros x ->. unfold attr_value.
  destruct (n_attrs n) as [|a m].
  - exists [], []. cbn [attr_get]. rewrite !app_nil_r. auto.
  - cbv zeta.
    do 2 eexists. split; [reflexivity|]. split; [destruct (attr_get _ _) as [[[v|] ?]|]; cbn [a_value]; rewrite ?bare_eq; auto|].
    set (K := bs "class"). destruct (attr_get K (a :: m)) as [[[v|] ?]|]; cbn [a_value]; auto.
    rewrite bare_eq. eexists. split; [|reflexivity]. apply (split_ws_words (bare v) []). auto.
Qed.

(** ** Examples *)
Definition tag_doc : textdoc := utf16_doc (bs "<div id=""a"" class='x  y'>é
<p>hi</p><br></DIV>").
Definition tag_roots : list node :=
  match parse demo_unicode (d_text tag_doc) false html5_void with Ok r => r | _ => [] end.
(** The hypotheses of the theorems hold for this document. *)
Example tag_doc_ok : textdoc_ok tag_doc /\ parse demo_unicode (d_text tag_doc) false html5_void = Ok tag_roots.
Proof.
  split; [|vm_compute; reflexivity]. apply C27_contract. exists (decode (d_text tag_doc)). vm_compute. auto.
Qed.
(** Cursor in the name of the end tag: rename, linked editing, highlights. *)
Example C28_demo : exists edits, do_rename tag_doc (mkPos 1 17) (bs "main") tag_roots = Ok (Some edits) /\
  map (fun e => (text_of tag_doc (fst e), snd e)) edits = [(bs "div", bs "main"); (bs "DIV", bs "main")] /\
  map fst edits = [mkRange (mkPos 0 1) (mkPos 0 4); mkRange (mkPos 1 15) (mkPos 1 18)].
Proof. eexists. vm_compute. auto. Qed.
Example C28_demo_none : do_rename tag_doc (mkPos 0 12) (bs "main") tag_roots = Ok None.
Proof. vm_compute. auto. Qed.
Example C28_demo_tight : exists n, innermost tag_roots (offset_at tag_doc (mkPos 1 17)) n /\
  n_tag n = Some (bs "div") /\ tight (d_text tag_doc) n /\ n_ets n = Some 41.
Proof.
  destruct tag_roots as [|n r] eqn:E; [vm_compute in E; discriminate|]. exists n.
  assert (F : nth_error tag_roots 0 = Some n) by (rewrite E; auto). vm_compute in F. inv F.
  split; [|split; [reflexivity|split; [split|reflexivity]]].
  - rewrite <- E. vm_compute in E. inv E. split; [|split].
    + vm_compute. auto.
    + vm_compute. lia.
    + intros m M. vm_compute in M. decompose [or] M; subst; vm_compute; try lia; tauto.
  - intros b B. vm_compute in B. inv B. reflexivity.
  - intros e b A B. vm_compute in A. inv A. vm_compute in B. inv B. reflexivity.
Qed.
Example C30_demo : exists l, find_linked_editing_ranges tag_doc (mkPos 1 2) tag_roots = Ok (Some l) /\
  map (text_of tag_doc) l = [bs "p"; bs "p"].
Proof. eexists. vm_compute. auto. Qed.
Example C31_demo : find_matching_tag_position tag_doc (mkPos 1 17) tag_roots = Ok (Some (mkPos 0 3)) /\
  find_matching_tag_position tag_doc (mkPos 0 3) tag_roots = Ok (Some (mkPos 1 17)).
Proof. vm_compute. auto. Qed.
Example C32_demo : exists l, find_document_highlights demo_unicode tag_doc (mkPos 1 17) tag_roots false = Ok l /\
  map (text_of tag_doc) l = [bs "div"; bs "DIV"] /\
  find_document_highlights demo_unicode tag_doc (mkPos 1 4) tag_roots false = Ok [].
Proof. eexists. vm_compute. auto. Qed.
Example C33_demo : map (fun i => (i_name i, i_container i)) (find_document_symbols tag_doc tag_roots) =
  [(bs "div#a.x.y", None); (bs "p", Some (bs "div#a.x.y")); (bs "br", Some (bs "div#a.x.y"))].
Proof. vm_compute. auto. Qed.

(** ** Findings *)
(** Rename, linked editing: white space before the name shifts the range. *)
Theorem C28_space_refuted : exists d roots p edits, textdoc_ok d /\
  parse demo_unicode (d_text d) false html5_void = Ok roots /\
  do_rename d p (bs "main") roots = Ok (Some edits) /\
  map n_tag roots = [Some (bs "div")] /\
  map (fun e => text_of d (fst e)) edits = [bs " di"; bs " di"].
Proof.
  exists (utf16_doc (bs "< div></ div>")). eexists. exists (mkPos 0 2). eexists.
  split; [apply C27_contract; exists (decode (bs "< div></ div>")); vm_compute; auto|].
  split; [vm_compute; reflexivity|]. split; [vm_compute; reflexivity|]. vm_compute. auto.
Qed.
(** Names that differ in case can differ in length: KELVIN SIGN (U+212A, three
    bytes) is a word character and lowercases to k. The range for the end tag is
    computed with the length of the start tag name. *)
Definition kelvin_unicode : unicode := {|
  uni_word := fun c => N.eqb c 8490;
  uni_lower := fun s => flat_map (fun c => if N.eqb c 8490 then bs "k" else encode1 (ascii_lower c)) (decode s)
|}.
Theorem C28_length_refuted : exists d roots p edits y, textdoc_ok d /\
  parse kelvin_unicode (d_text d) false html5_void = Ok roots /\
  do_rename d p (bs "main") roots = Ok (Some edits) /\
  map n_tag roots = [Some (bs "k")] /\ map n_ets roots = [Some 3] /\ sub (d_text d) 3 9 = bs "</" ++ y ++ bs ">" /\
  ~ map (fun e => text_of d (fst e)) edits = [bs "k"; y].
Proof.
  set (s := bs "<k></" ++ encode1 8490 ++ bs ">").
  exists (utf16_doc s). eexists. exists (mkPos 0 1). eexists. exists (encode1 8490).
  split; [apply C27_contract; exists (decode s); vm_compute; auto|].
  split; [vm_compute; reflexivity|]. split; [vm_compute; reflexivity|]. vm_compute. repeat split. discriminate.
Qed.
(** Matching tag: not an involution at the end of a name whose end tag lacks '>'. *)
Theorem C31_cut_refuted : exists d roots p q, textdoc_ok d /\
  parse demo_unicode (d_text d) false html5_void = Ok roots /\
  find_matching_tag_position d p roots = Ok (Some q) /\
  find_matching_tag_position d q roots = Ok None.
Proof.
  exists (utf16_doc (bs "<div></div<p></p>")). eexists. exists (mkPos 0 4). eexists.
  split; [apply C27_contract; exists (decode (bs "<div></div<p></p>")); vm_compute; auto|].
  split; [vm_compute; reflexivity|]. split; [vm_compute; reflexivity|]. vm_compute. auto.
Qed.

Print Assumptions C28_rename.
Print Assumptions C28_replaced_text.
Print Assumptions C28_same_length.
Print Assumptions C28_space_refuted.
Print Assumptions C28_length_refuted.
Print Assumptions C30_linked_editing.
Print Assumptions C30_names.
Print Assumptions C31_matching.
Print Assumptions C31_involution.
Print Assumptions C31_alike.
Print Assumptions C31_cut_refuted.
Print Assumptions C32_highlights.
Print Assumptions C33_symbols_nested.
Print Assumptions C33_ranges_nested.
Print Assumptions C33_symbols_flat.
Print Assumptions C33_names.
