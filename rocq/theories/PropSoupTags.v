(** * C85: the tag services on tags in any order *)
From Verif Require Import SelectionRange Base Stream Scanner BaseFacts ScannerFacts ScanStep ScanProps ScanPanic ScanShape
  Tree Parser ParseSpec ParseInv ParseOrder PropParse TreeFacts PropTree ParseEnd PropEnd TextDoc PropDoc TagServices PropTags
  Render RenderFacts PropRender PropRename PropTagDoc PropSoup PropSoupTyping.
From Coq Require Import ZifyBool ZifyNat ZifyN.

(** ** Specification *)
(** The part [x] of the sequence begins at offset [o]. *)
Definition part_at (l : list part) (o : nat) (x : part) : Prop :=
  exists l1 l2, l = l1 ++ x :: l2 /\ o = length (soup_text l1).
(** Where the name of an element of the tree is written: in its start tag and in the end tag that closes it. *)
Inductive spelled (l : list part) (n : node) : list (nat * nat) -> Prop :=
| S_piece h : part_at l (n_start n) (Piece h) -> nodes_from (n_start n) h = [n] -> spelled l n (names_at h (n_start n))
| S_open name attrs pad : part_at l (n_start n) (Opening name attrs pad) -> n_ets n = None ->
    spelled l n [(n_start n + 1, n_start n + 1 + length name)]
| S_closed name attrs pad close pad2 a : part_at l (n_start n) (Opening name attrs pad) -> n_ets n = Some a -> part_at l a (Closing close pad2) ->
    spelled l n [(n_start n + 1, n_start n + 1 + length name); (a + 2, a + 2 + length close)].
(** Both names have the same number of bytes. *)
Definition even (sp : list (nat * nat)) : Prop :=
  match sp with [(a, b); (a', b')] => b - a = b' - a' | _ => True end.
(** Elements are written as their tags. *)
Definition tags_only (x : part) : Prop := match x with Piece (HElement _ _ _ _ _ _) => False | _ => True end.

(** ** The services at a node *)
(** The text at a node is as the services presume. *)
Definition named (U : unicode) (t : str) (n : node) (sp : list (nat * nat)) : Prop :=
  exists name : str, n_tag n = Some name /\ nth_error t (n_start n) = Some LT /\ elem_name U t (n_start n + 1) (n_start n + 1 + length name) /\
    match n_ets n with
    | None => sp = [(n_start n + 1, n_start n + 1 + length name)]
    | Some a => exists y : str, is_prefix (bs "</") (skipn a t) = true /\ elem_name U t (a + 2) (a + 2 + length y) /\
        sp = [(n_start n + 1, n_start n + 1 + length name); (a + 2, a + 2 + length y)] /\ n_start n + 1 + length name < a + 2
    end.
Section Node.
Variables (U : unicode) (cs : bool) (void : list str) (d : textdoc) (roots : list node).
Hypothesis HD : textdoc_ok d.
Let t := d_text d.
Let HU : Utf8 t := do_utf8 _ HD.
Hypothesis HP : parse U t cs void = Ok roots.
Lemma node_services n sp x new : named U t n sp -> innermost roots x n -> Bd t x ->
  let p := position_at d x in
  let on := spans_on sp x in
  find_document_highlights U d p roots cs = Ok (if on then ranges d sp else []) /\
  (even sp ->
     find_linked_editing_ranges d p roots = Ok (if on then both (ranges d sp) else None) /\
     find_matching_tag_position d p roots = Ok (if on then option_map (position_at d) (other_place sp x) else None) /\
     do_rename d p new roots = Ok (if on then Some (map (fun r => (r, new)) (ranges d sp)) else None)).
Proof.
  intros (name & S2 & S3 & S4 & S5) I BX p on. assert (OX : offset_at d p = x) by (apply (do_inv _ HD); auto using Bd_boundary; apply Bd_le; auto).
  destruct (find_at_innermost _ _ _ _ _ x HU HP) as [[_ K]|(k & ps & F & _ & Un)]; [exfalso; eapply K; eauto|].
  rewrite <- (Un n I) in F. clear k Un.
  unfold find_document_highlights, find_linked_editing_ranges, find_matching_tag_position, do_rename. rewrite OX, F. cbn [bind]. rewrite S2. subst p.
  assert (W0 : forall q, Bd t q -> ws_run t q q). { intros q Q. split; auto. split; [apply Bd_le; auto|lia]. }
  destruct (bd_elem U t HU _ _ S4) as [B1 B2].
  rewrite (range_start_name U d cs HD (n_start n) _ _ S3 (W0 _ B1) S4). cbn [bind opt_covers opt_list].
  unfold is_self_closing, is_within_tag_range, in_start_name, in_end_name, between.
  rewrite (covers_span d HD _ _ x B1 B2 BX).
  destruct (n_ets n) as [a|] eqn:EA.
  - destruct S5 as (y & P & EN & NS & LT'). destruct (bd_elem U t HU _ _ EN) as [B3 B4].
    cbn [unwrap bind]. rewrite (range_end_name U d cs HD a _ _ P (W0 _ B3) EN). cbn [bind opt_covers opt_list].
    rewrite (covers_span d HD _ _ x B3 B4 BX). subst on sp. unfold spans_on. cbn [existsb fst snd ranges map]. rewrite orb_false_r.
    split; [destruct (_ || _); reflexivity|]. cbn [even]. intros W. replace (length y) with (length name) by lia.
    destruct ((n_start n + 1 <=? x) && (x <=? n_start n + 1 + length name)) eqn:C1;
      destruct ((a + 2 <=? x) && (x <=? a + 2 + length name)) eqn:C2; cbn [orb negb both other_place option_map]; rewrite ?C1; try (exfalso; lia);
      (split; [reflexivity|]); (split; [|reflexivity]).
    + unfold usub. replace (1 <=? x) with true by lia. cbn [bind]. replace (n_start n <=? x - 1) with true by lia. cbn [bind].
      cbn [option_map]. match goal with |- Ok (Some (position_at d ?u)) = Ok (Some (position_at d ?v)) => replace u with v by lia end. reflexivity.
    + unfold usub. replace (2 <=? x) with true by lia. cbn [bind]. replace (a <=? x - 2) with true by lia. cbn [bind].
      cbn [option_map]. match goal with |- Ok (Some (position_at d ?u)) = Ok (Some (position_at d ?v)) => replace u with v by lia end. reflexivity.
    + reflexivity.
  - subst on sp. unfold spans_on. cbn [existsb fst snd ranges map bind opt_covers opt_list app]. rewrite !orb_false_r.
    split; [destruct (_ && _); reflexivity|]. intros _. cbn [orb].
    destruct (_ && _); cbn [negb both other_place option_map]; auto.
Qed.
Lemma innermost_bare n x : In n (doc_nodes roots) -> n_start n <= x < n_end n ->
  (forall c, In c (n_children n) -> ~ n_start c <= x < n_end c) -> innermost roots x n.
Proof.
  intros I C G. split; auto. split; auto. intros k K Ck.
  pose proof (parsed_wf _ _ _ _ _ HU HP) as W.
  assert (AN : forall z, In z (doc_nodes roots) -> all_nodes nested z).
  { intros z Z. destruct W as [_ W]. apply in_flat_map in Z as (r & R & Z).
    rewrite Forall_forall in W. specialize (W r R). apply all_nodes_of_preorder.
    apply all_nodes_preorder in W. rewrite Forall_forall in *. intros y Y. apply W.
    clear - Z Y. revert r Z. refine (node_induction (fun r => In z (preorder r) -> In y (preorder r)) _).
    intros r IH Z. rewrite preorder_eq in Z. destruct Z as [->|Z]; auto.
    rewrite preorder_eq. right. apply in_flat_map in Z as (c & C & Z). apply in_flat_map. exists c.
    split; auto. rewrite Forall_forall in IH. apply IH; auto. }
  destruct (laminar_nodes roots W n k I K) as [->|[L|[L|[L|L]]]]; [lia| | |lia|lia].
  - pose proof (preorder_bounds_strict k n (AN k K) L). lia.
  - exfalso. apply in_flat_map in L as (c & Hc & L).
    assert (ANc : all_nodes nested c).
    { pose proof (AN n I) as Q. inv Q. rewrite Forall_forall in H0. auto. }
    pose proof (preorder_bounds c ANc k L) as PB. apply (G c Hc). lia.
Qed.
End Node.

(** ** The names in the sequence *)
Section Names.
Variables (U : unicode) (cs : bool) (void : list str) (d : textdoc) (L : list part).
Hypothesis HD : textdoc_ok d.
Hypothesis HG : Forall (good_part U cs void) L.
Let t := d_text d.
Hypothesis HT : t = soup_text L.
Let HU : Utf8 t := do_utf8 _ HD.
Lemma at_part o x : part_at L o x -> good_part U cs void x /\ exists r, at_ t o (part_text x ++ r).
Proof.
  intros (l1 & l2 & E & ->). assert (HG' := HG). rewrite E in HG'. apply Forall_app in HG' as [G1 G2]. apply Forall_cons_iff in G2 as [Gx G2].
  split; auto. exists (soup_text l2).
  assert (T : t = soup_text l1 ++ part_text x ++ soup_text l2) by (rewrite HT, E; unfold soup_text; rewrite flat_map_app; reflexivity).
  assert (A0 : at_ t 0 (soup_text l1 ++ part_text x ++ soup_text l2)) by (split; [rewrite T; reflexivity|apply Bd_0; auto]).
  apply at_adv in A0; [exact A0|auto|]. eapply soup_utf8; eauto.
Qed.
Lemma start_named o name attrs pad : part_at L o (Opening name attrs pad) -> nth_error t o = Some LT /\ elem_name U t (o + 1) (o + 1 + length name).
Proof.
  intros P. destruct (at_part _ _ P) as ((GN & _ & _ & GA & GP) & r & A0). cbn [part_text] in A0. unfold start_tag in A0. rewrite <- !app_assoc in A0. split.
  - destruct A0 as [A0 _]. rewrite <- (Nat.add_0_r o), <- skipn_nth_error, A0. reflexivity.
  - apply at_adv in A0; [|auto|apply ascii_utf8; reflexivity]. change (length (bs "<")) with 1 in A0. change (bs ">" ++ r) with (62%N :: r) in A0.
    destruct (start_stop attrs pad 62%N r (proj1 GA) GP (or_introl eq_refl)) as (b & r' & E & S'). rewrite E in A0. eapply at_elem; eauto.
Qed.
Lemma end_named a name pad : part_at L a (Closing name pad) -> is_prefix (bs "</") (skipn a t) = true /\ elem_name U t (a + 2) (a + 2 + length name).
Proof.
  intros P. destruct (at_part _ _ P) as ((GN & GP) & r & A0). cbn [part_text] in A0. unfold end_tag in A0. rewrite <- !app_assoc in A0. split; [eapply at_prefix; eauto|].
  apply at_adv in A0; [|auto|apply ascii_utf8; reflexivity]. change (length (bs "</")) with 2 in A0. change (bs ">" ++ r) with (62%N :: r) in A0.
  destruct (start_stop [] pad 62%N r (Forall_nil _) GP (or_introl eq_refl)) as (b & r' & E & S'). cbn [render_attrs flat_map app] in E.
  rewrite E in A0. eapply at_elem; eauto.
Qed.
Lemma opening_long name attrs pad : length name + 2 <= length (start_tag name attrs pad (bs ">")).
Proof. unfold start_tag. rewrite !app_length. change (length (bs "<")) with 1. change (length (bs ">")) with 1. lia. Qed.
Lemma closing_long name pad : length name + 3 <= length (end_tag name pad).
Proof. unfold end_tag. rewrite !app_length. change (length (bs "</")) with 2. change (length (bs ">")) with 1. lia. Qed.

Definition fact (m : node) : Prop := exists sp, spelled L m sp /\ named U t m sp /\
  forall x, on_spans sp x -> n_start m <= x < n_end m /\ forall c, In c (n_children m) -> ~ n_start c <= x < n_end c.
Lemma part_at_app pre x post : L = pre ++ x :: post -> part_at L (length (soup_text pre)) x.
Proof. intros E. exists pre, post. auto. Qed.
Lemma child_in c ns : In c ns -> In c (flat_map preorder ns).
Proof. intros I. apply in_flat_map. exists c. split; auto. apply preorder_in. auto. Qed.
Lemma soup_names around o l e left ns : denotes U cs around o l e left ns -> Forall tags_only l ->
  forall pre post, L = pre ++ l ++ post -> o = length (soup_text pre) -> forall m, In m (flat_map preorder ns) -> fact m.
Proof.
  assert (LEN : forall pre x, length (soup_text (pre ++ x)) = length (soup_text pre) + length (soup_text x)) by (intros; unfold soup_text; rewrite flat_map_app, app_length; reflexivity).
  assert (ONE : forall x, length (soup_text [x]) = length (part_text x)) by (intros; unfold soup_text; cbn [flat_map]; rewrite app_nil_r; reflexivity).
  induction 1 as [around o|around o h l e left ns D IH|around o name pad l e left ns N D IH|
    around o name attrs pad body b open kids close pad2 l e left ns a z D1 IH1 NO SN D2 IH2|around o name attrs pad body e open kids a D IH];
    intros F pre post E O m I.
  - destruct I.
  - apply Forall_cons_iff in F as [Fh Fl]. rewrite flat_map_app in I. apply in_app_iff in I as [I|I].
    2:{ apply (IH Fl (pre ++ [Piece h]) post); auto; [rewrite <- app_assoc; exact E|rewrite LEN, ONE, O; reflexivity]. }
    assert (PA : part_at L o (Piece h)) by (rewrite O; eapply part_at_app; exact E).
    assert (N1 : nodes_from o h = [m] /\ n_start m = o).
    { destruct h as [y|y|w y|name attrs pad bd close pad2|name attrs pad y pad2|name attrs pad|name attrs pad]; cbn [tags_only] in Fh; try destruct Fh;
        cbn [nodes_from flat_map] in I; try (destruct I; fail); rewrite app_nil_r in I; apply preorder_in in I as [->|I]; try (destruct I; fail); split; reflexivity. }
    destruct N1 as [N1 N2]. exists (names_at h o). split; [rewrite <- N2; apply S_piece; rewrite N2; auto|]. split.
    { destruct (at_part _ _ PA) as (Gh & r & A0). cbn [good_part part_text] in Gh, A0.
      destruct (shape U cs void d HD h o r Gh A0) as (n & Q1 & Q2 & Q3 & Q4 & Q5 & Q6); [destruct h; discriminate|].
      rewrite N1 in Q1. apply (f_equal (@hd_error node)), Some_inj in Q1. subst n. exists (h_name h). rewrite N2. split; auto. split; auto. split; auto.
      destruct (n_ets m) as [a|]; [|auto]. destruct Q6 as (y & R1 & R2 & R3 & R4 & _). exists y. auto. }
    intros x X. destruct (one_node h o x) as (n & Q1 & Q2 & Q3 & Q4 & Q5 & Q6 & Q7); [apply on_name_spans; auto|].
    rewrite N1 in Q1. apply (f_equal (@hd_error node)), Some_inj in Q1. subst n. split; auto. intros c C. apply Q6. apply child_in; auto.
  - apply Forall_cons_iff in F as [_ Fl]. apply (IH Fl (pre ++ [Closing name pad]) post); auto; [rewrite <- app_assoc; exact E|rewrite LEN, ONE, O; reflexivity].
  - apply Forall_cons_iff in F as [_ F]. apply Forall_app in F as [Fb F]. apply Forall_cons_iff in F as [_ Fl].
    assert (Eb : L = (pre ++ [Opening name attrs pad]) ++ body ++ (Closing close pad2 :: l ++ post)) by (rewrite E, <- !app_assoc; cbn [app]; rewrite <- !app_assoc; reflexivity).
    assert (Ec : L = (pre ++ Opening name attrs pad :: body) ++ Closing close pad2 :: (l ++ post)) by (rewrite E, <- !app_assoc; cbn [app]; rewrite <- !app_assoc; reflexivity).
    assert (El : L = (pre ++ Opening name attrs pad :: body ++ [Closing close pad2]) ++ l ++ post) by (rewrite E, <- !app_assoc; cbn [app]; rewrite <- !app_assoc; reflexivity).
    assert (Gb : Forall (good_part U cs void) body) by (assert (H := HG); rewrite Eb in H; apply Forall_app in H as [_ H]; apply Forall_app in H as [H _]; exact H).
    pose proof (denotes_end _ _ _ _ _ _ _ _ D1) as DE. pose proof (denotes_bounds U cs void _ _ _ _ _ _ D1 Gb) as DB.
    assert (LA : a = length (soup_text (pre ++ [Opening name attrs pad]))) by (rewrite LEN, ONE, <- O; reflexivity).
    assert (LB : b = length (soup_text (pre ++ Opening name attrs pad :: body))).
    { change (Opening name attrs pad :: body) with ([Opening name attrs pad] ++ body). rewrite app_assoc, LEN, <- LA. exact DE. }
    cbn [flat_map] in I. apply in_app_iff in I as [I|I].
    2:{ apply (IH2 Fl _ _ El); auto. change (Opening name attrs pad :: body ++ [Closing close pad2]) with ((Opening name attrs pad :: body) ++ [Closing close pad2]).
        rewrite app_assoc, LEN, ONE, <- LB. reflexivity. }
    apply preorder_in in I as [->|I]; [|apply (IH1 Fb _ _ Eb LA); exact I].
    eexists. split; [eapply S_closed; cbn [n_start n_ets]; [rewrite O; eapply part_at_app; exact E|reflexivity|rewrite LB; eapply part_at_app; exact Ec]|]. split.
    { destruct (start_named o name attrs pad) as [R1 R2]; [rewrite O; eapply part_at_app; exact E|].
      destruct (end_named b close pad2) as [R3 R4]; [rewrite LB; eapply part_at_app; exact Ec|].
      exists name. cbn [n_tag n_start n_ets]. split; auto. split; auto. split; auto. exists close. split; auto. split; auto. split; auto.
      pose proof (opening_long name attrs pad). unfold a in *. lia. }
    cbn [n_start n_end n_children]. intros x X. pose proof (opening_long name attrs pad) as L1. pose proof (closing_long close pad2) as L2. subst z. unfold a in *.
    assert (X' : o + 1 <= x <= o + 1 + length name \/ b + 2 <= x <= b + 2 + length close) by (unfold on_spans, on_span in X; rewrite !Exists_cons, Exists_nil in X; cbn [fst snd] in X; tauto).
    split; [lia|]. intros c C. pose proof (DB c (child_in _ _ C)). lia.
  - apply Forall_cons_iff in F as [_ Fb].
    assert (Eb : L = (pre ++ [Opening name attrs pad]) ++ body ++ post) by (rewrite E, <- !app_assoc; reflexivity).
    assert (Gb : Forall (good_part U cs void) body) by (assert (H := HG); rewrite Eb in H; apply Forall_app in H as [_ H]; apply Forall_app in H as [H _]; exact H).
    pose proof (denotes_end _ _ _ _ _ _ _ _ D) as DE. pose proof (denotes_bounds U cs void _ _ _ _ _ _ D Gb) as DB.
    assert (LA : a = length (soup_text (pre ++ [Opening name attrs pad]))) by (rewrite LEN, ONE, <- O; reflexivity).
    cbn [flat_map] in I. rewrite app_nil_r in I. apply preorder_in in I as [->|I]; [|apply (IH Fb _ _ Eb LA); exact I].
    eexists. split; [eapply S_open; cbn [n_start n_ets]; [rewrite O; eapply part_at_app; exact E|reflexivity]|]. split.
    { destruct (start_named o name attrs pad) as [R1 R2]; [rewrite O; eapply part_at_app; exact E|].
      exists name. cbn [n_tag n_start n_ets]. auto. }
    cbn [n_start n_end n_children]. intros x X. pose proof (opening_long name attrs pad) as L1. unfold a in *.
    assert (X' : o + 1 <= x <= o + 1 + length name) by (unfold on_spans, on_span in X; rewrite !Exists_cons, Exists_nil in X; cbn [fst snd] in X; tauto).
    split; [lia|]. intros c C. pose proof (DB c (child_in _ _ C)). lia.
Qed.
End Names.

(** ** C85 *)
(** Each element of the tree has its names in the sequence, and on them the services answer with just these. *)
Theorem C85_on_name : forall U cs void d l e left ns n, textdoc_ok d -> d_text d = soup_text l ->
  good_soup U cs void l -> Forall tags_only l -> denotes U cs [] 0 l e left ns -> In n (doc_nodes ns) ->
  exists sp, spelled l n sp /\ forall x new, Bd (d_text d) x -> on_spans sp x ->
  let p := position_at d x in
  let names := ranges d sp in
  find_document_highlights U d p ns cs = Ok names /\
  (even sp ->
     find_linked_editing_ranges d p ns = Ok (both names) /\
     find_matching_tag_position d p ns = Ok (option_map (position_at d) (other_place sp x)) /\
     do_rename d p new ns = Ok (Some (map (fun r => (r, new)) names))).
Proof.
  intros U cs void d l e left ns n HD T G F D I.
  assert (P : parse U (d_text d) cs void = Ok ns) by (rewrite T; eapply C82_tree; eauto).
  destruct (soup_names U cs void d l HD (proj1 G) T _ _ _ _ _ _ D F [] []) with (m := n) as (sp & S1 & S2 & S3); [rewrite app_nil_r; reflexivity|reflexivity|exact I|].
  exists sp. split; auto. intros x new B O p names. destruct (S3 x O) as [C K].
  pose proof (node_services U cs void d ns HD P n sp x new S2 (innermost_bare U cs void d ns HD P n x I C K) B) as Q. cbv zeta in Q.
  apply spans_on_spec in O. rewrite O in Q. exact Q.
Qed.
Print Assumptions C85_on_name.
(** Elsewhere, as on an end tag that closes nothing, they do nothing. *)
Theorem C85_elsewhere : forall U cs void d l e left ns x new, textdoc_ok d -> d_text d = soup_text l ->
  good_soup U cs void l -> Forall tags_only l -> denotes U cs [] 0 l e left ns -> Bd (d_text d) x ->
  (forall n sp, In n (doc_nodes ns) -> spelled l n sp -> ~ on_spans sp x) ->
  let p := position_at d x in
  find_document_highlights U d p ns cs = Ok [] /\
  ((forall n sp, In n (doc_nodes ns) -> spelled l n sp -> even sp) ->
     find_linked_editing_ranges d p ns = Ok None /\ find_matching_tag_position d p ns = Ok None /\ do_rename d p new ns = Ok None).
Proof.
  intros U cs void d l e left ns x new HD T G F D B O p.
  assert (P : parse U (d_text d) cs void = Ok ns) by (rewrite T; eapply C82_tree; eauto).
  assert (OX : offset_at d p = x) by (apply (do_inv _ HD); auto using Bd_boundary; apply Bd_le; auto).
  destruct (find_at_innermost _ _ _ _ _ x (do_utf8 _ HD) P) as [[Q _]|(n & ps & _ & I & _)].
  - unfold find_document_highlights, find_linked_editing_ranges, find_matching_tag_position, do_rename. rewrite OX, Q. auto.
  - destruct (soup_names U cs void d l HD (proj1 G) T _ _ _ _ _ _ D F [] []) with (m := n) as (sp & S1 & S2 & _); [rewrite app_nil_r; reflexivity|reflexivity|exact (proj1 I)|].
    pose proof (node_services U cs void d ns HD P n sp x new S2 I B) as Q. cbv zeta in Q.
    assert (OF : spans_on sp x = false) by (apply not_true_iff_false; rewrite spans_on_spec; apply (O n); [exact (proj1 I)|auto]).
    rewrite OF in Q. destruct Q as [Q1 Q2]. split; auto. intros W. apply Q2. apply (W n); [exact (proj1 I)|auto].
Qed.
Print Assumptions C85_elsewhere.
(** The places of the names are determined. *)
Lemma part_long U cs void x : good_part U cs void x -> 0 < length (part_text x).
Proof.
  destruct x as [h|name attrs pad|name pad]; cbn [good_part part_text]; intros G.
  - destruct (render_lt U cs void h G) as [[y ->]|(r' & ->)]; [inversion G as [? (NE & _)| | | | | | |]; destruct y; [congruence|cbn; lia]|cbn; lia].
  - pose proof (opening_long name attrs pad). lia.
  - pose proof (closing_long name pad). lia.
Qed.
Lemma part_at_unique U cs void l o x y : Forall (good_part U cs void) l -> part_at l o x -> part_at l o y -> x = y.
Proof.
  intros G (l1 & l2 & -> & ->) (k1 & k2 & E & O). revert k1 E O. induction l1 as [|u l1 IH]; intros k1 E O; cbn [app] in *.
  - destruct k1 as [|v k1]; [cbn [app] in E; injection E as E _; exact E|]. exfalso. cbn [app] in E. injection E as -> _. apply Forall_cons_iff in G as [G _]. apply part_long in G.
    unfold soup_text in O. cbn [flat_map length] in O. rewrite app_length in O. lia.
  - apply Forall_cons_iff in G as [Gu G]. destruct k1 as [|v k1].
    + exfalso. apply part_long in Gu. unfold soup_text in O. cbn [flat_map length] in O. rewrite app_length in O. lia.
    + cbn [app] in E. injection E as -> E. apply (IH G k1 E). unfold soup_text in O. cbn [flat_map] in O. rewrite !app_length in O. unfold soup_text. lia.
Qed.
Theorem C85_unique : forall U cs void l n sp sp', good_soup U cs void l -> spelled l n sp -> spelled l n sp' -> sp = sp'.
Proof.
  intros U cs void l n sp sp' [G _]. assert (Un := fun o x y => part_at_unique U cs void l o x y G).
  intros [h A1 A2|name attrs pad A1 A2|name attrs pad close pad2 a A1 A2 A3] [h' B1 B2|name' attrs' pad' B1 B2|name' attrs' pad' close' pad2' a' B1 B2 B3];
    pose proof (Un _ _ _ A1 B1) as E; try discriminate E; try congruence.
  rewrite A2 in B2. apply Some_inj in B2. subst a'. pose proof (Un _ _ _ A3 B3) as E2. congruence.
Qed.
Print Assumptions C85_unique.

(** ** A concrete case *)
(** In [<ul><li>a<li>b</UL></p><b><br>]: the list has two names, an item left open has one and the end tag that closes nothing is no name. *)
Example C85_mixed : let d := utf16_doc (soup_text mixed) in let p x := position_at d x in
  textdoc_ok d /\ Forall tags_only mixed /\
  spelled mixed (hd (node_new 0 0) mixed_nodes) [(1, 3); (16, 18)] /\
  find_document_highlights demo_unicode d (p 17) mixed_nodes false = Ok (ranges d [(1, 3); (16, 18)]) /\
  find_matching_tag_position d (p 17) mixed_nodes = Ok (Some (p 2)) /\
  do_rename d (p 10) (bs "dt") mixed_nodes = Ok (Some [(range_at d 10 12, bs "dt")]) /\
  do_rename d (p 21) (bs "dt") mixed_nodes = Ok None.
Proof.
  split; [apply C27_contract, ascii_utf8; reflexivity|]. split; [repeat constructor|]. split.
  { apply (S_closed mixed (hd (node_new 0 0) mixed_nodes) (bs "ul") [] [] (bs "UL") [] 14); [exists [], (tl mixed); split; reflexivity|reflexivity|].
    exists (firstn 5 mixed), (skipn 6 mixed). split; reflexivity. }
  repeat split; vm_compute; reflexivity.
Qed.
