(** * C78: the tag services and the symbols on well-formed documents *)
From Verif Require Import Base BaseFacts Stream Scanner ScannerFacts ScanStep ScanProps ScanPanic
  ScanShape Tree Parser ParseSpec ParseInv ParseOrder PropParse TreeFacts TextDoc PropDoc TagServices
  PropTags Render RenderFacts PropRender PropRename.
From Coq Require Import ZifyBool ZifyNat ZifyN.

(** ** Specification *)
(** Where the name of an element is written, if the element is written from offset [o]:
    in the start tag and, if there is one, in the end tag. *)
Definition names_at (h : html) (o : nat) : list (nat * nat) :=
  match h with
  | HText _ | HComment _ | HDoctype _ _ => []
  | HElement name attrs pad body close _ =>
      let e := o + length (start_tag name attrs pad (bs ">")) + length (render_all body) in
      [(o + 1, o + 1 + length name); (e + 2, e + 2 + length close)]
  | HRaw name attrs pad s _ =>
      let e := o + length (start_tag name attrs pad (bs ">")) + length s in
      [(o + 1, o + 1 + length name); (e + 2, e + 2 + length name)]
  | HVoid name _ _ | HSelf name _ _ => [(o + 1, o + 1 + length name)]
  end.
(** The offset is in one of the spans or at an end of it. *)
Definition on_span (s : nat * nat) (x : nat) : Prop := fst s <= x <= snd s.
Definition on_spans (l : list (nat * nat)) (x : nat) : Prop := Exists (fun s => on_span s x) l.
Definition ranges (d : textdoc) (l : list (nat * nat)) : list range := map (fun s => range_at d (fst s) (snd s)) l.
(** Linked editing is for elements with both tags. *)
Definition both (l : list range) : option (list range) := match l with [_; _] => Some l | _ => None end.
(** The same place in the other name. *)
Definition other_place (l : list (nat * nat)) (x : nat) : option nat :=
  match l with
  | [(a, b); (a', b')] => if (a <=? x) && (x <=? b) then Some (a' + (x - a)) else Some (a + (x - a'))
  | _ => None
  end.

(** ** The elements of a document *)
Lemma on_name_spans h o x : on_name h o x <-> on_spans (names_at h o) x.
Proof.
  unfold on_spans, on_span. destruct h; cbn [on_name names_at h_name]; rewrite ?Exists_cons, ?Exists_nil; cbn [fst snd]; tauto.
Qed.
Lemma from_hole_list l : Forall (fun h => forall o n, In n (flat_map preorder (nodes_from o h)) ->
    exists c' h', [h] = fill c' h' /\ nodes_from (o + hole c') h' = [n]) l ->
  forall o n, In n (flat_map preorder (nodes_all o l)) -> exists c h, l = fill c h /\ nodes_from (o + hole c) h = [n].
Proof.
  induction 1 as [|h l H _ IH]; intros o n I; [destruct I|].
  unfold nodes_all in I. cbn [nodes_with] in I. rewrite flat_map_app, in_app_iff in I. destruct I as [I|I].
  - destruct (H _ _ I) as (c & h' & E & N). destruct c as [b a|b name attrs pad c close pad2 a]; cbn [fill hole] in *.
    + assert (b = [] /\ h' = h) as [-> ->]. { destruct b as [|z b]; [injection E; auto|destruct b; discriminate]. }
      exists (Here [] l), h. auto.
    + assert (b = [] /\ h = HElement name attrs pad (fill c h') close pad2) as [-> ->].
      { destruct b as [|z b]; [injection E; auto|destruct b; discriminate]. }
      exists (Inside [] name attrs pad c close pad2 l), h'. auto.
  - destruct (IH _ _ I) as (c & h' & -> & N). destruct c as [b a|b name attrs pad c close pad2 a]; cbn [fill hole] in *.
    + exists (Here (h :: b) a), h'. split; auto. cbn [hole]. rewrite render_cons, app_length, Nat.add_assoc. auto.
    + exists (Inside (h :: b) name attrs pad c close pad2 a), h'. split; auto. cbn [hole]. rewrite render_cons, app_length.
      rewrite <- N. f_equal. lia.
Qed.
Lemma from_hole_one h : forall o n, In n (flat_map preorder (nodes_from o h)) ->
  exists c' h', [h] = fill c' h' /\ nodes_from (o + hole c') h' = [n].
Proof.
  revert h. fix IH 1. intros h.
  destruct h as [x|x|w x|name attrs pad body close pad2|name attrs pad x pad2|name attrs pad|name attrs pad]; intros o n I.
  1-3: destruct I.
  - assert (F : Forall (fun h => forall o n, In n (flat_map preorder (nodes_from o h)) ->
      exists c' h', [h] = fill c' h' /\ nodes_from (o + hole c') h' = [n]) body).
    { clear - IH. revert body. fix IHl 1. intros body. destruct body as [|h l]; [constructor|]. constructor; [exact (IH h)|apply IHl]. }
    clear IH. cbn [nodes_from flat_map] in I; rewrite app_nil_r, preorder_eq in I; cbn [n_children] in I.
    destruct I as [E|I]; [exists (Here [] []); eexists; split; [reflexivity|]; cbn [hole render_all flat_map length]; rewrite Nat.add_0_r, <- E; reflexivity|].
    change (nodes_with nodes_from ?a body) with (nodes_all a body) in I.
    apply (from_hole_list body F) in I as (c & h' & -> & N). exists (Inside [] name attrs pad c close pad2 []), h'. split; auto.
    cbn [hole render_all flat_map length]. rewrite <- N. f_equal. lia.
  - cbn in I. destruct I as [E|[]]. exists (Here [] []); eexists; split; [reflexivity|]; cbn [hole render_all flat_map length]; rewrite Nat.add_0_r, <- E; reflexivity.
  - cbn in I. destruct I as [E|[]]. exists (Here [] []); eexists; split; [reflexivity|]; cbn [hole render_all flat_map length]; rewrite Nat.add_0_r, <- E; reflexivity.
  - cbn in I. destruct I as [E|[]]. exists (Here [] []); eexists; split; [reflexivity|]; cbn [hole render_all flat_map length]; rewrite Nat.add_0_r, <- E; reflexivity.
Qed.
Lemma from_hole l o n : In n (flat_map preorder (nodes_all o l)) -> exists c h, l = fill c h /\ nodes_from (o + hole c) h = [n].
Proof. apply from_hole_list. clear. induction l; constructor; auto. apply from_hole_one. Qed.

Section Doc.
Variables (U : unicode) (cs : bool) (void : list str) (d : textdoc).
Hypothesis HD : textdoc_ok d.
Let t := d_text d.
Let HU : Utf8 t := do_utf8 _ HD.

(** The names are where they are presumed. *)
Lemma start_stop attrs pad z s : Forall good_attr attrs -> blank pad -> z = 62%N \/ z = 47%N ->
  exists b r, render_attrs attrs ++ pad ++ z :: s = b :: r /\ stops b.
Proof.
  intros GA GP Z. assert (BL : forall w, blank w -> forall b r, w = b :: r -> stops b).
  { intros w W b r ->. left. rewrite blank_ws in W. apply W. cbn. auto. }
  destruct GA as [|a l (A1 & A2 & _) _].
  - cbn [render_attrs flat_map app]. destruct pad as [|b r]; [|exists b, (r ++ z :: s); split; [reflexivity|]; apply (BL _ GP b r eq_refl)].
    exists z, s. split; auto. right. auto.
  - cbn [render_attrs flat_map]. unfold render_attr. rewrite <- !app_assoc. destruct (ha_space a) as [|b r] eqn:E; [congruence|].
    eexists _, _. split; [reflexivity|]. apply (BL _ A1 b r). auto.
Qed.
Lemma shape h o post : good U cs void h -> at_ t o (render h ++ post) -> names_at h o <> [] ->
  exists n, nodes_from o h = [n] /\ n_start n = o /\ n_tag n = Some (h_name h) /\
    nth_error t o = Some LT /\ elem_name U t (o + 1) (o + 1 + length (h_name h)) /\
    match n_ets n with
    | None => names_at h o = [(o + 1, o + 1 + length (h_name h))]
    | Some a => exists y : str, is_prefix (bs "</") (skipn a t) = true /\ elem_name U t (a + 2) (a + 2 + length y) /\
        names_at h o = [(o + 1, o + 1 + length (h_name h)); (a + 2, a + 2 + length y)] /\
        o + 1 + length (h_name h) < a + 2 /\
        (same_width h -> length y = length (h_name h))
    end.
Proof.
  intros G A NE.
  assert (ULT : Utf8 (bs "<")) by (apply ascii_utf8; reflexivity).
  assert (ULS : Utf8 (bs "</")) by (apply ascii_utf8; reflexivity).
  assert (UGT : Utf8 (bs ">")) by (apply ascii_utf8; reflexivity).
  (* a start tag *)
  assert (ST : forall name attrs pad stop z s, good_name U name -> Forall good_attr attrs -> blank pad -> z = 62%N \/ z = 47%N -> stop = z :: s ->
    forall r, at_ t o (start_tag name attrs pad stop ++ r) -> nth_error t o = Some LT /\ elem_name U t (o + 1) (o + 1 + length name)).
  { intros name attrs pad stop z s GN GA GP Z -> r A0. unfold start_tag in A0. rewrite <- !app_assoc in A0. split.
    - destruct A0 as [A0 _]. rewrite <- (Nat.add_0_r o), <- skipn_nth_error, A0. reflexivity.
    - apply at_adv in A0; auto. change (length (bs "<")) with 1 in A0. change ((z :: s) ++ r) with (z :: s ++ r) in A0.
      destruct (start_stop attrs pad z (s ++ r) GA GP Z) as (b & r' & E & S). rewrite E in A0. eapply at_elem; eauto. }
  (* an end tag *)
  assert (ET : forall a name pad r, good_name U name -> blank pad -> at_ t a (end_tag name pad ++ r) ->
    is_prefix (bs "</") (skipn a t) = true /\ elem_name U t (a + 2) (a + 2 + length name)).
  { intros a name pad r GN GP A0. unfold end_tag in A0. rewrite <- !app_assoc in A0. split; [eapply at_prefix; eauto|].
    apply at_adv in A0; auto. change (length (bs "</")) with 2 in A0. change (bs ">" ++ r) with (62%N :: r) in A0.
    destruct (start_stop [] pad 62%N r (Forall_nil _) GP (or_introl eq_refl)) as (b & r' & E & S). cbn [render_attrs flat_map app] in E.
    rewrite E in A0. eapply at_elem; eauto. }
  assert (RAW : forall name attrs pad z pad2, good_name U name -> good_attrs attrs -> blank pad -> Utf8 z -> blank pad2 ->
    h = HRaw name attrs pad z pad2 -> exists n, nodes_from o h = [n] /\ n_start n = o /\ n_tag n = Some (h_name h) /\
    nth_error t o = Some LT /\ elem_name U t (o + 1) (o + 1 + length (h_name h)) /\
    match n_ets n with
    | None => names_at h o = [(o + 1, o + 1 + length (h_name h))]
    | Some a => exists y : str, is_prefix (bs "</") (skipn a t) = true /\ elem_name U t (a + 2) (a + 2 + length y) /\
        names_at h o = [(o + 1, o + 1 + length (h_name h)); (a + 2, a + 2 + length y)] /\
        o + 1 + length (h_name h) < a + 2 /\
        (same_width h -> length y = length (h_name h))
    end).
  { intros name attrs pad z pad2 GN GA GP UZ GP2 ->. cbn [nodes_from h_name names_at render] in *. eexists. split; [reflexivity|]. cbn [n_start n_tag n_ets].
    split; auto. split; auto. rewrite <- !app_assoc in A.
    destruct (ST _ _ _ (bs ">") 62%N [] GN (proj1 GA) GP (or_introl eq_refl) eq_refl _ A) as [S1 S2]. split; auto. split; auto.
    apply at_adv in A; auto; [|apply (start_utf8 U); auto]. apply at_adv in A; auto.
    destruct (ET _ _ _ _ GN GP2 A) as [E1 E2]. exists name. split; auto. split; auto. split; auto. split; auto.
    unfold start_tag. rewrite !app_length. change (length (bs "<")) with 1. change (length (bs ">")) with 1. lia. }
  destruct G as [s G|s G _|w s W G _|name attrs pad body close pad2 G1 _ _ G2 G3 G4 _ G5 SC G6
    |attrs pad s pad2 _ G1 G2 _ G3 _ _ _ _ G4|attrs pad s pad2 _ G1 G2 G3 _ G4|name attrs pad G1 _ _ G2 G3|name attrs pad G1 G2 G3 _];
    try (exfalso; apply NE; reflexivity).
  - cbn [nodes_from h_name names_at render] in *. change (flat_map render body) with (render_all body) in *. eexists. split; [reflexivity|]. cbn [n_start n_tag n_ets].
    split; auto. split; auto. rewrite <- !app_assoc in A.
    destruct (ST _ _ _ (bs ">") 62%N [] G1 (proj1 G2) G3 (or_introl eq_refl) eq_refl _ A) as [S1 S2]. split; auto. split; auto.
    apply at_adv in A; auto; [|apply (start_utf8 U); auto]. apply at_adv in A; auto.
    2:{ clear - G4. induction G4; [apply u_nil|unfold render_all in *]. cbn [flat_map]. apply u_app; auto. eapply render_utf8; eauto. }
    destruct (ET _ _ _ _ G5 G6 A) as [E1 E2]. exists close. split; auto. split; auto. split; auto. split; auto.
    unfold start_tag. rewrite !app_length. change (length (bs "<")) with 1. change (length (bs ">")) with 1. lia.
  - eapply RAW; try reflexivity; auto. apply script_name.
  - eapply RAW; try reflexivity; auto. apply style_name.
  - cbn [nodes_from h_name names_at render] in *. eexists. split; [reflexivity|]. cbn [n_start n_tag n_ets]. split; auto. split; auto.
    destruct (ST _ _ _ (bs ">") 62%N [] G1 (proj1 G2) G3 (or_introl eq_refl) eq_refl _ A) as [S1 S2]. auto.
  - cbn [nodes_from h_name names_at render] in *. eexists. split; [reflexivity|]. cbn [n_start n_tag n_ets]. split; auto. split; auto.
    destruct (ST _ _ _ (bs "/>") 47%N (bs ">") G1 (proj1 G2) G3 (or_intror eq_refl) eq_refl _ A) as [S1 S2]. auto.
Qed.

(** ** The services at an offset whose innermost element is known *)
Lemma covers_span a b x : Bd t a -> Bd t b -> Bd t x -> covers (range_at d a b) (position_at d x) = (a <=? x) && (x <=? b).
Proof.
  intros A B X. apply eq_true_iff_eq. rewrite (covers_touches (range_at d a b) (position_at d x)), andb_true_iff, !Nat.leb_le.
  unfold touches, range_at. cbn [r_start r_end].
  assert (L : forall i j, Bd t i -> Bd t j -> pos_le (position_at d i) (position_at d j) <-> i <= j).
  { intros i j I J. split; [|apply (pos_mono d HD); auto]. intros P.
    destruct (Nat.le_gt_cases i j) as [|K]; auto. exfalso.
    assert (Q : pos_lt (position_at d j) (position_at d i)).
    { apply (do_mono _ HD); auto using Bd_boundary. apply Bd_le. auto. }
    unfold pos_le, pos_lt in *. destruct P as [P|P]; [rewrite P in Q; lia|lia]. }
  rewrite !L; auto. tauto.
Qed.
Variable l : list html.
Hypothesis HG : good_doc U cs void l.
Hypothesis HT : t = render_all l.
Lemma parsed : parse U t cs void = Ok (nodes_all 0 l).
Proof. rewrite HT. apply C21_round_trip. auto. Qed.
Lemma at_hole c h : l = fill c h -> (exists n, nodes_from (hole c) h = [n]) -> exists post, at_ t (hole c) (render h ++ post).
Proof.
  intros E (n & N). destruct (around c) as (pre & post & L & R). exists post. rewrite E, R in HT.
  assert (G : good U cs void h) by (apply good_hole with (c := c); rewrite <- E; auto).
  split; [rewrite HT, skipn_app, <- L, skipn_all, Nat.sub_diag; reflexivity|].
  apply boundary_Bd; auto; [rewrite HT, app_length; lia|].
  destruct (render_lt U cs void h G) as [[z ->]|(r & RL)]; [discriminate|].
  apply boundary_byte with (b := 60%N); [|lia]. rewrite HT, RL, nth_error_app2 by lia. rewrite L, Nat.sub_diag. reflexivity.
Qed.
Definition spans_on (ns : list (nat * nat)) (x : nat) : bool := existsb (fun s => (fst s <=? x) && (x <=? snd s)) ns.
Lemma spans_on_spec ns x : spans_on ns x = true <-> on_spans ns x.
Proof.
  unfold spans_on, on_spans, on_span. rewrite existsb_exists, Exists_exists.
  split; intros (s & I & H); exists s; (split; [auto|lia]).
Qed.
Lemma services c h n x new : l = fill c h -> nodes_from (hole c) h = [n] -> innermost (nodes_all 0 l) x n -> Bd t x ->
  let p := position_at d x in
  let ns := names_at h (hole c) in
  let on := spans_on ns x in
  find_document_highlights U d p (nodes_all 0 l) cs = Ok (if on then ranges d ns else []) /\
  (same_width h ->
     find_linked_editing_ranges d p (nodes_all 0 l) = Ok (if on then both (ranges d ns) else None) /\
     find_matching_tag_position d p (nodes_all 0 l) = Ok (if on then option_map (position_at d) (other_place ns x) else None) /\
     do_rename d p new (nodes_all 0 l) = Ok (if on then Some (map (fun r => (r, new)) (ranges d ns)) else None)).
Proof.
  intros E N I BX p ns on. assert (OX : offset_at d p = x) by (apply (do_inv _ HD); auto using Bd_boundary; apply Bd_le; auto).
  assert (G : good U cs void h) by (apply good_hole with (c := c); rewrite <- E; auto).
  destruct (at_hole c h E (ex_intro _ n N)) as (post & A).
  destruct (shape h (hole c) post G A) as (n' & N' & S1 & S2 & S3 & S4 & S5).
  { destruct h; discriminate. }
  rewrite N in N'. apply (f_equal (@hd_error node)), Some_inj in N'. subst n'.
  destruct (find_at_innermost _ _ _ _ _ x HU parsed) as [[_ K]|(k & ps & F & _ & Un)]; [exfalso; eapply K; eauto|].
  rewrite <- (Un n I) in F. clear k Un.
  unfold find_document_highlights, find_linked_editing_ranges, find_matching_tag_position, do_rename. rewrite OX, F. cbn [bind]. rewrite S2, S1. subst p.
  assert (W0 : forall q, Bd t q -> ws_run t q q). { intros q Q. split; auto. split; [apply Bd_le; auto|lia]. }
  destruct (bd_elem U t HU _ _ S4) as [B1 B2].
  rewrite (range_start_name U d cs HD (hole c) _ _ S3 (W0 _ B1) S4). cbn [bind opt_covers opt_list].
  unfold is_self_closing, is_within_tag_range, in_start_name, in_end_name, between.
  rewrite (covers_span _ _ x B1 B2 BX). rewrite S1.
  destruct (n_ets n) as [a|] eqn:EA.
  - destruct S5 as (y & P & EN & NS & LT' & SW). destruct (bd_elem U t HU _ _ EN) as [B3 B4].
    cbn [unwrap bind]. rewrite (range_end_name U d cs HD a _ _ P (W0 _ B3) EN). cbn [bind opt_covers opt_list].
    rewrite (covers_span _ _ x B3 B4 BX). subst on ns. rewrite NS. unfold spans_on. cbn [existsb fst snd ranges map]. rewrite orb_false_r.
    split; [destruct (_ || _); reflexivity|]. intros W. rewrite (SW W).
    destruct ((hole c + 1 <=? x) && (x <=? hole c + 1 + length (h_name h))) eqn:C1;
      destruct ((a + 2 <=? x) && (x <=? a + 2 + length (h_name h))) eqn:C2; cbn [orb negb both other_place option_map]; rewrite ?C1; try (exfalso; lia);
      (split; [reflexivity|]); (split; [|reflexivity]).
    + unfold usub. replace (1 <=? x) with true by lia. cbn [bind]. replace (hole c <=? x - 1) with true by lia. cbn [bind].
      cbn [option_map]. match goal with |- Ok (Some (position_at d ?u)) = Ok (Some (position_at d ?v)) => replace u with v by lia end. reflexivity.
    + unfold usub. replace (2 <=? x) with true by lia. cbn [bind]. replace (a <=? x - 2) with true by lia. cbn [bind].
      cbn [option_map]. match goal with |- Ok (Some (position_at d ?u)) = Ok (Some (position_at d ?v)) => replace u with v by lia end. reflexivity.
    + reflexivity.
  - subst on ns. rewrite S5. unfold spans_on. cbn [existsb fst snd ranges map bind opt_covers opt_list app]. rewrite !orb_false_r.
    split; [destruct (_ && _); reflexivity|]. intros _. cbn [orb]. 
    destruct (_ && _); cbn [negb both other_place option_map]; auto.
Qed.
End Doc.

(** ** C78 *)
(** On the name of an element, in either tag, in a document of any size: both names of the
    element are highlighted, linked, renamed, and the cursor is sent to the same
    place of the other name. *)
Theorem C78_on_name : forall U cs void d c h x new, good_doc U cs void (fill c h) -> textdoc_ok d ->
  d_text d = render_all (fill c h) -> Bd (d_text d) x -> on_spans (names_at h (hole c)) x ->
  let p := position_at d x in
  let names := ranges d (names_at h (hole c)) in
  exists roots, parse U (d_text d) cs void = Ok roots /\
    find_document_highlights U d p roots cs = Ok names /\
    (same_width h ->
       find_linked_editing_ranges d p roots = Ok (both names) /\
       find_matching_tag_position d p roots = Ok (option_map (position_at d) (other_place (names_at h (hole c)) x)) /\
       do_rename d p new roots = Ok (Some (map (fun r => (r, new)) names))).
Proof.
  intros U cs void d c h x new G D T B O p names. exists (nodes_all 0 (fill c h)). split; [apply parsed; auto|].
  destruct (one_node h (hole c) x) as (n & N1 & N2 & N3 & N4 & N5 & N6 & N7); [apply on_name_spans; auto|].
  destruct (hole_node c h n 0 N1) as [I1 I2]. cbn [Nat.add] in I2.
  assert (IM : innermost (nodes_all 0 (fill c h)) x n).
  { split; [auto|]. split; [auto|]. intros m M X. destruct (I2 m x M X) as [K|[-> |K]]; [lia|lia|lia|].
    exfalso. eapply N6; eauto. }
  pose proof (services U cs void d D (fill c h) G T c h n x new eq_refl N1 IM B) as S. cbv zeta in S.
  apply spans_on_spec in O. rewrite O in S. exact S.
Qed.
(** Elsewhere they do nothing. *)
Theorem C78_elsewhere : forall U cs void d l x new, good_doc U cs void l -> textdoc_ok d ->
  d_text d = render_all l -> Bd (d_text d) x ->
  (forall c h, l = fill c h -> ~ on_spans (names_at h (hole c)) x) ->
  let p := position_at d x in
  exists roots, parse U (d_text d) cs void = Ok roots /\
    find_document_highlights U d p roots cs = Ok [] /\
    ((forall c h, l = fill c h -> same_width h) ->
       find_linked_editing_ranges d p roots = Ok None /\ find_matching_tag_position d p roots = Ok None /\
       do_rename d p new roots = Ok None).
Proof.
  intros U cs void d l x new G D T B O p. exists (nodes_all 0 l). pose proof (parsed U cs void d l G T) as P. split; auto.
  assert (OX : offset_at d p = x) by (apply (do_inv _ D); auto using Bd_boundary; apply Bd_le; auto).
  destruct (find_at_innermost _ _ _ _ _ x (do_utf8 _ D) P) as [[F _]|(n & ps & _ & I & _)].
  - unfold find_document_highlights, find_linked_editing_ranges, find_matching_tag_position, do_rename. rewrite OX, F. auto.
  - destruct (from_hole l 0 n (proj1 I)) as (c & h & E & N). cbn [Nat.add] in N.
    pose proof (services U cs void d D l G T c h n x new E N I B) as S. cbv zeta in S.
    assert (OF : spans_on (names_at h (hole c)) x = false).
    { apply not_true_iff_false. rewrite spans_on_spec. apply O. auto. }
    rewrite OF in S. destruct S as [S1 S2]. split; auto. intros W. apply S2. eauto.
Qed.

(** ** Symbols *)
(** The attribute [k] has the value [v] (without its quotes). *)
Definition holds (attrs : list hattr) (k v : str) : Prop :=
  exists a, In a attrs /\ ha_name a = k /\
    match ha_value a with NoValue => False | Bare _ x | Quoted _ _ x => x = v end.
(** The label of an element: its name, # and its id, and a dot and the name for each of its
    classes; quote characters inside of values are dropped. *)
Definition label (name : str) (attrs : list hattr) (s : str) : Prop :=
  exists i c, s = name ++ i ++ c /\
    ((exists v, holds attrs (bs "id") v /\ i = bs "#" ++ bare v) \/ ((forall v, ~ holds attrs (bs "id") v) /\ i = [])) /\
    ((exists v ws, holds attrs (bs "class") v /\ words (bare v) ws /\ c = concat (map (fun w => bs "." ++ w) ws)) \/
     ((forall v, ~ holds attrs (bs "class") v) /\ c = [])).
(** The symbols of a document written from offset [o]: one for each element, on the
    whole element, with those of its content below it. *)
Section Outline.
Variable d : textdoc.
Definition whole (o : nat) (h : html) : range := range_at d o (o + length (render h)).
Inductive outline : nat -> html -> list symbol -> Prop :=
| Out_text o s : outline o (HText s) []
| Out_comment o s : outline o (HComment s) []
| Out_doctype o w s : outline o (HDoctype w s) []
| Out_element o name attrs pad body close pad2 s ch : label name attrs s ->
    outlines (o + length (start_tag name attrs pad (bs ">"))) body ch ->
    outline o (HElement name attrs pad body close pad2)
      [mkSymbol s (whole o (HElement name attrs pad body close pad2)) (whole o (HElement name attrs pad body close pad2)) ch]
| Out_raw o name attrs pad z pad2 s : label name attrs s ->
    outline o (HRaw name attrs pad z pad2) [mkSymbol s (whole o (HRaw name attrs pad z pad2)) (whole o (HRaw name attrs pad z pad2)) []]
| Out_void o name attrs pad s : label name attrs s ->
    outline o (HVoid name attrs pad) [mkSymbol s (whole o (HVoid name attrs pad)) (whole o (HVoid name attrs pad)) []]
| Out_self o name attrs pad s : label name attrs s ->
    outline o (HSelf name attrs pad) [mkSymbol s (whole o (HSelf name attrs pad)) (whole o (HSelf name attrs pad)) []]
with outlines : nat -> list html -> list symbol -> Prop :=
| Out_nil o : outlines o [] []
| Out_cons o h a l b : outline o h a -> outlines (o + length (render h)) l b -> outlines o (h :: l) (a ++ b).
End Outline.

Lemma get_attrs k attrs : NoDup (map ha_name attrs) -> forall o,
  (exists a, In a attrs /\ ha_name a = k /\ attr_get k (attrs_from o attrs) <> None /\
     match attr_get k (attrs_from o attrs) with Some x => a_value x = value_text (ha_value a) | None => False end) \/
  ((forall a, In a attrs -> ha_name a <> k) /\ attr_get k (attrs_from o attrs) = None).
Proof.
  induction attrs as [|a l IH]; intros ND o; cbn [attrs_from attr_get]; [right; split; [intros ? []|auto]|].
  cbn [map] in ND. inversion ND as [|? ? N1 N2]; subst. destruct (beq k (ha_name a)) eqn:E.
  - apply beq_eq in E. left. exists a. split; [cbn; auto|]. split; [auto|]. split; [discriminate|reflexivity].
  - destruct (IH N2 (o + length (render_attr a))) as [(b & I & X)|[X Y]].
    + left. exists b. split; [cbn; auto|exact X].
    + right. split; auto. intros b [->|I]; auto. intros <-. rewrite beq_refl in E. discriminate.
Qed.
Lemma bare_quoted q v : q = 34%N \/ q = 39%N -> bare ([q] ++ v ++ [q]) = bare v.
Proof.
  intros Q. unfold bare. rewrite !filter_app. cbn [filter]. unfold DQUOTE, SQUOTE.
  replace (negb (q =? 34)%N && negb (q =? 39)%N) with false by lia. cbn [app]. apply app_nil_r.
Qed.
Lemma attr_holds n o attrs k : n_attrs n = attrs_from o attrs -> good_attrs attrs ->
  match attr_value n k with
  | Some w => exists v, holds attrs k v /\ bare w = bare v
  | None => forall v, ~ holds attrs k v
  end.
Proof.
  intros E [G ND]. unfold attr_value. rewrite E.
  assert (ONE : forall a b, In a attrs -> In b attrs -> ha_name a = ha_name b -> a = b).
  { clear - ND. induction attrs as [|x l IH]; intros a b A B Q; [destruct A|]. cbn [map] in ND. inversion ND as [|? ? N1 N2]; subst.
    destruct A as [->|A], B as [->|B]; auto; exfalso; apply N1.
    - rewrite Q. apply in_map; auto.
    - rewrite <- Q. apply in_map; auto. }
  destruct (get_attrs k attrs ND o) as [(a & I & NM & _ & X)|[X ->]].
  - destruct (attr_get k (attrs_from o attrs)) as [x|]; [|tauto]. rewrite X. rewrite Forall_forall in G. pose proof (G a I) as (_ & _ & _ & _ & GV).
    destruct (ha_value a) as [|g v|g q v] eqn:V; cbn [value_text].
    + intros v (b & IB & NB & H). assert (a = b) by (apply ONE; auto; congruence). subst b. rewrite V in H. exact H.
    + exists v. split; auto. exists a. rewrite V. auto.
    + exists v. split; [exists a; rewrite V; auto|]. apply bare_quoted. apply GV.
  - intros v (b & IB & NB & _). apply (X b); auto.
Qed.
Lemma label_ok n o name attrs : n_tag n = Some name -> n_attrs n = attrs_from o attrs -> good_attrs attrs -> label name attrs (node_to_name n).
Proof.
  intros T E G. destruct (C33_names n) as [_ H]. destruct (H name T) as (i & c & -> & I & C). exists i, c. split; auto.
  pose proof (attr_holds n o attrs (bs "id") E G) as HI. pose proof (attr_holds n o attrs (bs "class") E G) as HC. split.
  - destruct (attr_value n (bs "id")) as [w|]; [|right; auto]. destruct HI as (v & V & B). left. exists v. rewrite <- B. auto.
  - destruct (attr_value n (bs "class")) as [w|]; [|right; auto]. destruct HC as (v & V & B). destruct C as (ws & W & ->). left. exists v, ws. rewrite <- B. auto.
Qed.
Lemma outlined_list d U cs void l : Forall (fun h => good U cs void h -> forall o, outline d o h (map (node_symbol d) (nodes_from o h))) l ->
  Forall (good U cs void) l -> forall o, outlines d o l (map (node_symbol d) (nodes_all o l)).
Proof.
  induction 1 as [|h l H _ IH]; intros G o; [constructor|]. inversion G; subst. unfold nodes_all. cbn [nodes_with]. rewrite map_app.
  constructor; auto.
Qed.
Lemma outlined d U cs void h : good U cs void h -> forall o, outline d o h (map (node_symbol d) (nodes_from o h)).
Proof.
  revert h. fix IH 1. intros h. destruct h as [x|x|w x|name attrs pad body close pad2|name attrs pad x pad2|name attrs pad|name attrs pad];
    intros G o.
  1-3: constructor.
  - assert (F : Forall (fun h => good U cs void h -> forall o, outline d o h (map (node_symbol d) (nodes_from o h))) body).
    { clear - IH. revert body. fix IHl 1. intros body. destruct body as [|h l]; [constructor|]. constructor; [exact (IH h)|apply IHl]. }
    clear IH. inversion G; subst. cbn [nodes_from map]. rewrite node_symbol_eq. cbn [n_start n_end n_children].
    change (nodes_with nodes_from ?a body) with (nodes_all a body).
    match goal with |- outline _ _ ?hh [mkSymbol _ ?r _ _] => replace r with (whole d o hh) end.
    + constructor; [eapply label_ok; eauto; reflexivity|]. eapply outlined_list; eauto.
    + unfold whole. cbn [render]. rewrite !app_length. change (flat_map render body) with (render_all body). f_equal. lia.
  - cbn [nodes_from map]. rewrite node_symbol_eq. cbn [n_start n_end n_children map].
    match goal with |- outline _ _ ?hh [mkSymbol _ ?r _ _] => replace r with (whole d o hh) end.
    + constructor. inversion G; subst; eapply label_ok; eauto; reflexivity.
    + unfold whole. cbn [render]. rewrite !app_length. f_equal. lia.
  - cbn [nodes_from map]. rewrite node_symbol_eq. cbn [n_start n_end n_children map].
    match goal with |- outline _ _ ?hh [mkSymbol _ ?r _ _] => replace r with (whole d o hh) by reflexivity end.
    constructor. inversion G; subst; eapply label_ok; eauto; reflexivity.
  - cbn [nodes_from map]. rewrite node_symbol_eq. cbn [n_start n_end n_children map].
    match goal with |- outline _ _ ?hh [mkSymbol _ ?r _ _] => replace r with (whole d o hh) by reflexivity end.
    constructor. inversion G; subst; eapply label_ok; eauto; reflexivity.
Qed.

(** The symbols of a well-formed document are its elements. *)
Theorem C78_symbols : forall U cs void d l, good_doc U cs void l -> textdoc_ok d -> d_text d = render_all l ->
  exists roots, parse U (d_text d) cs void = Ok roots /\ outlines d 0 l (find_document_symbols2 d roots).
Proof.
  intros U cs void d l G D T. exists (nodes_all 0 l). split; [apply parsed; auto|].
  destruct G as [G _]. apply (outlined_list d U cs void l); auto. clear. induction l; constructor; auto. intros. eapply outlined; eauto.
Qed.
Print Assumptions C78_on_name.
Print Assumptions C78_elsewhere.
Print Assumptions C78_symbols.

(** ** Cases *)
(** The [p] of [demo], from its end tag, which is written [P]. *)
Example C78_demo : let d := utf16_doc (render_all demo) in
  good_doc demo_unicode false html5_void (fill demo_ctx demo_p) /\ textdoc_ok d /\ d_text d = render_all (fill demo_ctx demo_p) /\
  Bd (d_text d) 99 /\ on_spans (names_at demo_p (hole demo_ctx)) 99 /\ same_width demo_p /\
  map (text_of d) (ranges d (names_at demo_p (hole demo_ctx))) = [bs "p"; bs "P"] /\
  other_place (names_at demo_p (hole demo_ctx)) 99 = Some 66.
Proof.
  intros d. assert (D : textdoc_ok d) by (apply C27_contract; exists (decode (render_all demo)); vm_compute; auto).
  split; [apply demo_good|]. split; auto. split; [reflexivity|].
  split; [apply boundary_Bd; [apply do_utf8; auto|vm_compute; lia|vm_compute; reflexivity]|].
  split; [vm_compute; right; left; split; lia|]. split; [reflexivity|]. split; vm_compute; reflexivity.
Qed.
(** Inside of the content nothing is on a name. *)
Definition one_p : list html := [HElement (bs "p") [] [] [HText (bs "xy")] (bs "p") []].
Example C78_outside : good_doc demo_unicode false html5_void one_p /\
  forall c h, one_p = fill c h -> ~ on_spans (names_at h (hole c)) 4 /\ same_width h.
Proof.
  split.
  - split; [|cbn; auto]. apply Forall_cons; [|apply Forall_nil]. apply G_element; try name; try blanks.
    + intros [H|H]; discriminate.
    + intros H. cbn in H. intuition discriminate.
    + split; constructor.
    + apply Forall_cons; [|apply Forall_nil]. apply G_text. split; [discriminate|]. split; [apply ascii_utf8; reflexivity|cbn; intuition discriminate].
    + cbn. auto.
    + reflexivity.
  - assert (K : forall b z (x : html) a, [x] = b ++ z :: a -> b = [] /\ z = x /\ a = []).
    { intros b z x a E. destruct b as [|u b]; [injection E as <- <-; auto|destruct b; discriminate]. }
    intros c h E. destruct c as [b a|b name attrs pad c close pad2 a]; cbn [fill hole] in *; apply K in E as (-> & E & ->).
    + subst h. split; [|reflexivity]. intros H. vm_compute in H. inversion H as [? ? Q|? ? Q]; subst; [lia|]. inversion Q as [? ? Q'|? ? Q']; subst; [lia|inversion Q'].
    + injection E as -> -> -> E -> ->. destruct c as [b a|]; cbn [fill hole] in *; symmetry in E; apply K in E as (-> & E & ->); [|discriminate].
      subst h. split; [|exact Logic.I]. intros H. inversion H.
Qed.
(** Labels: id and classes. *)
Example C78_labels :
  (do roots <- parse demo_unicode (bs "<ul id=""m'n"" class=' a  b '><li class>x</li></ul>") false html5_void;
   Ok (map (fun s => (i_name s, i_container s)) (find_document_symbols (utf16_doc (bs "<ul id=""m'n"" class=' a  b '><li class>x</li></ul>")) roots))) =
  Ok [(bs "ul#mn.a.b", None); (bs "li", Some (bs "ul#mn.a.b"))].
Proof. vm_compute. reflexivity. Qed.
