(** * C29: renaming keeps the document structure *)
From Verif Require Import Base BaseFacts Stream Scanner ScannerFacts ScanStep ScanProps ScanPanic
  ScanShape Tree Parser ParseSpec ParseInv ParseOrder PropParse TreeFacts TextDoc PropDoc TagServices
  PropTags Render RenderFacts PropRender.
From Coq Require Import ZifyBool ZifyNat ZifyN.

(** ** Specification *)
(** A document with a hole: at the top, or inside an element. *)
Inductive ctx :=
| Here (before after : list html)
| Inside (before : list html) (name : str) (attrs : list hattr) (pad : str) (c : ctx)
         (close pad2 : str) (after : list html).
Fixpoint fill (c : ctx) (h : html) : list html :=
  match c with
  | Here b a => b ++ h :: a
  | Inside b name attrs pad c close pad2 a => b ++ HElement name attrs pad (fill c h) close pad2 :: a
  end.
(** Where the hole is in the text. *)
Fixpoint hole (c : ctx) : nat :=
  match c with
  | Here b _ => length (render_all b)
  | Inside b name attrs pad c _ _ _ =>
      length (render_all b) + length (start_tag name attrs pad (bs ">")) + hole c
  end.
(** The element with another name in both tags. *)
Definition renamed (new : str) (h : html) : html :=
  match h with
  | HElement _ attrs pad body _ pad2 => HElement new attrs pad body new pad2
  | HRaw _ attrs pad s pad2 => HRaw new attrs pad s pad2
  | HVoid _ attrs pad => HVoid new attrs pad
  | HSelf _ attrs pad => HSelf new attrs pad
  | _ => h
  end.
(** The offset is on the name in the start tag or in the end tag of [h], which is
    written at [o]: between two characters of the name, before it or after it. *)
Definition on_name (h : html) (o x : nat) : Prop :=
  let n := length (h_name h) in
  match h with
  | HElement name attrs pad body close _ =>
      o + 1 <= x <= o + 1 + n \/
      (let e := o + length (start_tag name attrs pad (bs ">")) + length (render_all body) in
       e + 2 <= x <= e + 2 + length close)
  | HRaw name attrs pad s _ =>
      o + 1 <= x <= o + 1 + n \/
      (let e := o + length (start_tag name attrs pad (bs ">")) + length s in e + 2 <= x <= e + 2 + n)
  | HVoid _ _ _ | HSelf _ _ _ => o + 1 <= x <= o + 1 + n
  | _ => False
  end.
(** In case-insensitive mode the two names of an element may be written
    differently; their lengths in bytes agree for instance if they are ASCII. *)
Definition same_width (h : html) : Prop :=
  match h with HElement name _ _ _ close _ => length close = length name | _ => True end.
(** Applying edits, given in document order, to a text: all positions refer to
    the text before the edits. *)
Fixpoint replace_from (t : str) (o : nat) (es : list (nat * nat * str)) : str :=
  match es with
  | [] => skipn o t
  | (a, b, x) :: r => sub t o a ++ x ++ replace_from t b r
  end.
Definition edited (d : textdoc) (edits : list (range * str)) : str :=
  replace_from (d_text d) 0
    (map (fun e => (offset_at d (r_start (fst e)), offset_at d (r_end (fst e)), snd e)) edits).
(** A new name that keeps the kind of the element. *)
Definition fits (U : unicode) (cs : bool) (void : list str) (new : str) (h : html) : Prop :=
  match h with
  | HElement _ _ _ _ _ _ => good_name U new /\ ~ is_raw U cs new /\ ~ In new void
  | HVoid _ _ _ => good_name U new /\ ~ is_raw U cs new /\ In new void
  | HSelf _ _ _ => good_name U new
  | _ => False
  end.

(** ** The text around the hole *)
Lemma render_app a b : render_all (a ++ b) = render_all a ++ render_all b.
Proof. unfold render_all. apply flat_map_app. Qed.
Lemma render_cons h l : render_all (h :: l) = render h ++ render_all l.
Proof. reflexivity. Qed.
Lemma around c : exists pre post, length pre = hole c /\
  forall h, render_all (fill c h) = pre ++ render h ++ post.
Proof.
  induction c as [b a|b name attrs pad c (pre & post & L & H) close pad2 a].
  - exists (render_all b), (render_all a). split; auto. intros h. cbn [fill]. rewrite render_app, render_cons. auto.
  - exists (render_all b ++ start_tag name attrs pad (bs ">") ++ pre), (post ++ end_tag close pad2 ++ render_all a).
    split; [cbn [hole]; rewrite !app_length; lia|]. intros h. cbn [fill]. rewrite render_app, render_cons. cbn [render].
    change (flat_map render (fill c h)) with (render_all (fill c h)). rewrite H. rewrite <- !app_assoc. auto.
Qed.

(** ** The node in the hole *)
Lemma nodes_app a b : forall o, nodes_all o (a ++ b) = nodes_all o a ++ nodes_all (o + length (render_all a)) b.
Proof.
  unfold nodes_all. induction a as [|h a IH]; intros o; [cbn; rewrite Nat.add_0_r; auto|].
  cbn [app nodes_with]. rewrite IH, render_cons, app_length, Nat.add_assoc, app_assoc. auto.
Qed.
Lemma bounds_list l : Forall (fun h => forall o m, In m (flat_map preorder (nodes_from o h)) ->
    o <= n_start m /\ n_end m <= o + length (render h)) l ->
  forall o m, In m (flat_map preorder (nodes_all o l)) -> o <= n_start m /\ n_end m <= o + length (render_all l).
Proof.
  induction 1 as [|h l H _ IH]; intros o m I; [destruct I|]. unfold nodes_all in I. cbn [nodes_with] in I.
  rewrite flat_map_app, in_app_iff in I. rewrite render_cons, app_length. destruct I as [I|I].
  - apply H in I. lia.
  - apply IH in I. lia.
Qed.
Lemma bounds h : forall o m, In m (flat_map preorder (nodes_from o h)) ->
  o <= n_start m /\ n_end m <= o + length (render h).
Proof.
  revert h. fix IH 1. intros h o m I.
  destruct h as [x|x|w x|name attrs pad body close pad2|name attrs pad x pad2|name attrs pad|name attrs pad];
    try (destruct I; fail); cbn [nodes_from flat_map] in I; rewrite app_nil_r, preorder_eq in I; cbn [n_children] in I;
    destruct I as [<- |I]; cbn [n_start n_end render]; rewrite ?app_length;
    try change (flat_map render ?l) with (render_all l) in *; try lia; try (destruct I; fail).
  change (nodes_with nodes_from ?a body) with (nodes_all a body) in I.
  apply bounds_list in I; [lia|]. clear - IH. revert body. fix IHl 1. intros body. destruct body as [|h l]; [constructor|].
  constructor; [intros; eapply IH; eauto|apply IHl].
Qed.
Lemma bounds_all l o m : In m (flat_map preorder (nodes_all o l)) ->
  o <= n_start m /\ n_end m <= o + length (render_all l).
Proof. apply bounds_list. clear. induction l; constructor; auto. apply bounds. Qed.

Lemma hole_node c h n : forall o, nodes_from (o + hole c) h = [n] ->
  In n (doc_nodes (nodes_all o (fill c h))) /\
  forall m x, In m (doc_nodes (nodes_all o (fill c h))) -> n_start m <= x < n_end m ->
    o + hole c <= x < o + hole c + length (render h) ->
    (n_start m <= o + hole c /\ o + hole c + length (render h) <= n_end m) \/
    m = n \/ In m (flat_map preorder (n_children n)).
Proof.
  unfold doc_nodes.
  induction c as [b a|b name attrs pad c IH close pad2 a]; intros o H; cbn [fill hole] in *.
  - rewrite nodes_app. unfold nodes_all at 2 4. cbn [nodes_with]. rewrite H.
    change (nodes_with nodes_from ?k a) with (nodes_all k a).
    rewrite !flat_map_app. cbn [flat_map app]. rewrite app_nil_r, (preorder_eq n). split.
    + rewrite !in_app_iff. right. left. cbn; auto.
    + intros m x I X1 X2. rewrite !in_app_iff in I. destruct I as [I|[I|I]].
      * apply bounds_all in I. lia.
      * destruct I; auto.
      * apply bounds_all in I. lia.
  - rewrite nodes_app. unfold nodes_all at 2 4. cbn [nodes_with nodes_from].
    change (nodes_with nodes_from ?k a) with (nodes_all k a).
    change (nodes_with nodes_from ?k (fill c h)) with (nodes_all k (fill c h)).
    set (p := o + length (render_all b)) in *. set (q := p + length (start_tag name attrs pad (bs ">"))) in *.
    replace (o + (length (render_all b) + length (start_tag name attrs pad (bs ">")) + hole c)) with (q + hole c) in * by lia.
    destruct (IH q H) as [I1 I2]. rewrite !flat_map_app. cbn [flat_map app]. rewrite app_nil_r, preorder_eq. cbn [n_children].
    split.
    + rewrite !in_app_iff. right. left. cbn; auto.
    + intros m x I X1 X2. rewrite !in_app_iff in I. destruct (around c) as (pre & post & L & R).
      assert (LF : length (render_all (fill c h)) = hole c + length (render h) + length post).
      { rewrite R, !app_length. lia. }
      assert (LE : length (render (HElement name attrs pad (fill c h) close pad2)) =
        length (start_tag name attrs pad (bs ">")) + length (render_all (fill c h)) + length (end_tag close pad2)).
      { cbn [render]. rewrite !app_length. change (flat_map render (fill c h)) with (render_all (fill c h)). lia. }
      destruct I as [I|[[<- |I]|I]].
      * apply bounds_all in I. lia.
      * left. cbn [n_start n_end]. lia.
      * eapply I2; eauto.
      * apply bounds_all in I. rewrite LE in I. lia.
Qed.
Lemma one_node h o x : on_name h o x -> exists n, nodes_from o h = [n] /\ n_start n = o /\
  n_end n = o + length (render h) /\ n_tag n = Some (h_name h) /\
  n_start n <= x < n_end n /\
  (forall m, In m (flat_map preorder (n_children n)) -> ~ n_start m <= x < n_end m) /\
  (same_width h -> on_start_name n (h_name h) x \/ on_end_name n (h_name h) x).
Proof.
  intros H. destruct h as [y|y|w y|name attrs pad body close pad2|name attrs pad y pad2|name attrs pad|name attrs pad];
    try (destruct H; fail); cbn [on_name h_name] in H; eexists; split; try reflexivity;
    cbn [n_start n_end n_tag n_children h_name render same_width];
    try change (flat_map render ?l) with (render_all l) in *;
    unfold on_start_name, on_end_name; cbn [n_start n_ets]; unfold start_tag, end_tag in *;
    rewrite ?app_length in *; change (length (bs ">")) with 1 in *; change (length (bs "<")) with 1 in *;
    change (length (bs "</")) with 2 in *; change (length (bs "/>")) with 2 in *;
    (split; [auto|split; [lia|split; [auto|split; [lia|split]]]]).
  - intros m I. change (nodes_with nodes_from ?a body) with (nodes_all a body) in I. apply bounds_all in I. lia.
  - intros L. destruct H as [H|H]; [left; lia|right]. eexists; split; [reflexivity|lia].
  - intros m [].
  - intros _. destruct H as [H|H]; [left; lia|right]. eexists; split; [reflexivity|lia].
  - intros m [].
  - intros _. left. lia.
  - intros m [].
  - intros _. left. lia.
Qed.

(** ** Well-formedness of the pieces *)
Lemma good_hole U cs void c : forall h, good_doc U cs void (fill c h) -> good U cs void h.
Proof.
  induction c as [b a|b name attrs pad c IH close pad2 a]; intros h [G _]; cbn [fill] in G;
    apply Forall_app in G as [_ G]; inversion G as [|? ? G1 _]; subst; auto.
  inversion G1; subst. apply IH. split; auto.
Qed.
Definition is_text (h : html) : bool := match h with HText _ => true | _ => false end.
Lemma no_split_swap b h h' a : is_text h = is_text h' -> no_split (b ++ h :: a) -> no_split (b ++ h' :: a).
Proof.
  intros E. induction b as [|x b IH]; cbn [app].
  - destruct h, h'; cbn in *; try discriminate; auto.
  - destruct b as [|y b]; cbn [app] in *.
    + destruct x, h, h'; cbn in *; try discriminate; auto.
    + destruct x, y; cbn in *; auto.
Qed.
Lemma good_swap U cs void c : forall h h', is_text h = is_text h' -> good U cs void h' ->
  good_doc U cs void (fill c h) -> good_doc U cs void (fill c h').
Proof.
  induction c as [b a|b name attrs pad c IH close pad2 a]; intros h h' E G' [G NS]; cbn [fill] in *;
    apply Forall_app in G as [Gb G]; inversion G as [|? ? G1 Ga]; subst.
  - split; [apply Forall_app; split; auto|eapply no_split_swap; eauto].
  - inversion G1; subst. destruct (IH h h' E G') as [F1 F2]; [split; auto|]. split.
    + apply Forall_app; split; auto. constructor; auto. constructor; auto.
    + revert NS. apply no_split_swap. reflexivity.
Qed.
Lemma good_renamed U cs void new h : good U cs void h -> fits U cs void new h -> good U cs void (renamed new h).
Proof.
  intros G F. destruct G; cbn [fits renamed] in *; try tauto.
  - constructor; try tauto. unfold same. destruct cs; reflexivity.
  - constructor; tauto.
  - constructor; tauto.
Qed.

(** ** The edits *)
Lemma sub_app0 (a b : str) : sub (a ++ b) 0 (length a) = a.
Proof. unfold sub. cbn [skipn]. rewrite Nat.sub_0_r, firstn_app, firstn_all, Nat.sub_diag. apply app_nil_r. Qed.
Lemma sub_mid (a b c : str) : sub (a ++ b ++ c) (length a) (length a + length b) = b.
Proof. eapply sub_here. rewrite skipn_app, skipn_all, Nat.sub_diag. reflexivity. Qed.
Lemma replace_one a x b new t p q : t = a ++ x ++ b -> p = length a -> q = length a + length x ->
  replace_from t 0 [(p, q, new)] = a ++ new ++ b.
Proof.
  intros -> -> ->. cbn [replace_from]. rewrite sub_app0. f_equal. f_equal.
  rewrite (app_assoc a x b). rewrite <- app_length, skipn_app, skipn_all, Nat.sub_diag. reflexivity.
Qed.
Lemma replace_two a x b y c new t p q r s : t = a ++ x ++ b ++ y ++ c ->
  p = length a -> q = length a + length x -> r = q + length b -> s = r + length y ->
  replace_from t 0 [(p, q, new); (r, s, new)] = a ++ new ++ b ++ new ++ c.
Proof.
  intros -> -> -> -> ->. cbn [replace_from]. rewrite sub_app0. f_equal. f_equal.
  replace (a ++ x ++ b ++ y ++ c) with ((a ++ x) ++ b ++ y ++ c) by (rewrite <- app_assoc; auto).
  rewrite <- (app_length a x). rewrite sub_mid. f_equal. f_equal.
  replace ((a ++ x) ++ b ++ y ++ c) with (((a ++ x) ++ b ++ y) ++ c) by (rewrite <- !app_assoc; auto).
  rewrite <- Nat.add_assoc, <- app_length, <- app_length. rewrite skipn_app, skipn_all, Nat.sub_diag. reflexivity.
Qed.

Theorem C29_rename : forall U cs void d c h p new,
  good_doc U cs void (fill c h) -> textdoc_ok d -> d_text d = render_all (fill c h) ->
  on_name h (hole c) (offset_at d p) -> same_width h ->
  exists roots edits, parse U (d_text d) cs void = Ok roots /\
    do_rename d p new roots = Ok (Some edits) /\
    edited d edits = render_all (fill c (renamed new h)).
Proof.
  intros U cs void d c h p new G D T O W. set (x := offset_at d p) in *.
  assert (HP : parse U (d_text d) cs void = Ok (nodes_all 0 (fill c h))).
  { rewrite T. apply C21_round_trip; auto. }
  exists (nodes_all 0 (fill c h)).
  destruct (one_node h (hole c) x O) as (n & N1 & N2 & N3 & N4 & N5 & N6 & N7).
  destruct (hole_node c h n 0 N1) as [I1 I2]. cbn [Nat.add] in I2.
  assert (IM : innermost (nodes_all 0 (fill c h)) x n).
  { split; [auto|]. split; [auto|]. intros m M X. destruct (I2 m x M X) as [K|[-> |K]]; [lia|lia|lia|].
    exfalso. eapply N6; eauto. }
  destruct (C28_rename U d cs void _ D HP p new) as (r & R1 & R2). fold x in R2.
  destruct r as [edits|].
  2:{ destruct (R2 n _ IM N4) as [A B]. destruct (N7 W); tauto. }
  exists edits. split; auto. split; auto.
  destruct R2 as (n' & y & J & Y & _ & ->).
  destruct (find_at_innermost _ _ _ _ _ x (do_utf8 _ D) HP) as [[_ K]|(k & ps & _ & _ & Un)]; [exfalso; eapply K; eauto|].
  assert (n' = n) by (rewrite (Un n IM); auto). subst n'. rewrite N4 in Y. apply Some_inj in Y. subst y.
  pose proof (good_hole _ _ _ _ _ G) as GH.
  destruct (around c) as (pre & post & L & R).
  unfold edited. rewrite R. rewrite R in T.
  assert (UT : Utf8 (d_text d)) by apply (do_utf8 _ D).
  assert (RL : exists r, render h = 60%N :: r).
  { destruct (render_lt U cs void h GH) as [[z ->]|?]; auto. destruct O. }
  assert (A0 : at_ (d_text d) (hole c) (render h ++ post)).
  { split; [rewrite T, skipn_app, <- L, skipn_all, Nat.sub_diag; reflexivity|].
    apply boundary_Bd; auto; [rewrite T, app_length; lia|]. destruct RL as (r & RL).
    apply boundary_byte with (b := 60%N); [|lia]. rewrite T, RL, nth_error_app2 by lia. rewrite L, Nat.sub_diag. reflexivity. }
  assert (ULT : Utf8 (bs "<")) by (apply ascii_utf8; reflexivity).
  assert (ULS : Utf8 (bs "</")) by (apply ascii_utf8; reflexivity).
  assert (OF : forall a s q, at_ (d_text d) q (a ++ s) -> Utf8 a -> Bd (d_text d) q /\ Bd (d_text d) (q + length a)).
  { intros a s q A Ua. split; [apply A|]. eapply (at_adv (d_text d) UT); eauto. }
  destruct h as [z|z|w z|name attrs pad body close pad2|name attrs pad z pad2|name attrs pad|name attrs pad];
    try (destruct O; fail); cbn [nodes_from] in N1; apply (f_equal (@hd_error node)) in N1; cbn [hd_error] in N1; apply Some_inj in N1; subst n; cbn [n_start n_ets h_name] in *; clear R1 IM J Un I1 I2 N6 N7 N5 N3.
  - assert (UB : Utf8 (render_all body) /\ good_name U name /\ good_name U close /\ good_attrs attrs /\ blank pad).
    { inversion GH; subst. split; auto. match goal with X : Forall _ body |- _ => clear - X; induction X end; [apply u_nil|unfold render_all in *].
      cbn [flat_map]. apply u_app; auto. eapply render_utf8; eauto. }
    destruct UB as (UB & GN & GC & GA & GP).
    pose proof (proj1 (good_name_utf8 _ _ GN)) as UN. pose proof (proj1 (good_name_utf8 _ _ GC)) as UC.
    cbn [render] in *. change (flat_map render body) with (render_all body) in *. cbn [same_width] in W.
    assert (A1 := A0). unfold start_tag at 1 in A1. rewrite <- !app_assoc in A1. apply at_adv in A1; auto.
    destruct (OF _ _ _ A1 UN) as [B1 B2].
    assert (A2 := A0). rewrite <- !app_assoc in A2. apply at_adv in A2; [|exact UT|apply (start_utf8 U); auto; apply ascii_utf8; reflexivity].
    apply at_adv in A2; auto. unfold end_tag at 1 in A2. rewrite <- !app_assoc in A2. apply at_adv in A2; auto.
    destruct (OF _ _ _ A2 UC) as [B3 B4]. rewrite W in B4.
    change (length (bs "<")) with 1 in *. change (length (bs "</")) with 2 in *.
    cbn [map fst snd].
    destruct (range_text d _ _ D B1 B2) as (_ & -> & ->). destruct (range_text d _ _ D B3 B4) as (_ & -> & ->).
    rewrite replace_two with (a := pre ++ bs "<") (x := name)
       (b := render_attrs attrs ++ pad ++ bs ">" ++ render_all body ++ bs "</") (y := close) (c := pad2 ++ bs ">" ++ post).
    + cbn [renamed render]. change (flat_map render body) with (render_all body). unfold start_tag, end_tag. rewrite <- !app_assoc. auto.
    + rewrite T. unfold start_tag, end_tag. rewrite <- !app_assoc. auto.
    + rewrite app_length, L. auto.
    + rewrite app_length, L. auto.
    + unfold start_tag. rewrite !app_length. change (length (bs "<")) with 1. change (length (bs "</")) with 2. lia.
    + lia.
  - assert (UB : Utf8 z /\ Utf8 name /\ good_attrs attrs /\ blank pad).
    { inversion GH; subst; split; auto; split; auto; apply ascii_utf8; reflexivity. }
    destruct UB as (UB & UN & GA & GP).
    cbn [render] in *. 
    assert (A1 := A0). unfold start_tag at 1 in A1. rewrite <- !app_assoc in A1. apply at_adv in A1; auto.
    destruct (OF _ _ _ A1 UN) as [B1 B2].
    assert (A2 := A0). rewrite <- !app_assoc in A2. apply at_adv in A2; auto.
    2:{ apply (start_utf8 U); auto; [|apply ascii_utf8; reflexivity]. inversion GH; subst; [apply script_name|apply style_name]. }
    apply at_adv in A2; auto. unfold end_tag at 1 in A2. rewrite <- !app_assoc in A2. apply at_adv in A2; auto.
    destruct (OF _ _ _ A2 UN) as [B3 B4].
    change (length (bs "<")) with 1 in *. change (length (bs "</")) with 2 in *.
    cbn [map fst snd].
    destruct (range_text d _ _ D B1 B2) as (_ & -> & ->). destruct (range_text d _ _ D B3 B4) as (_ & -> & ->).
    rewrite replace_two with (a := pre ++ bs "<") (x := name)
       (b := render_attrs attrs ++ pad ++ bs ">" ++ z ++ bs "</") (y := name) (c := pad2 ++ bs ">" ++ post).
    + cbn [renamed render]. unfold start_tag, end_tag. rewrite <- !app_assoc. auto.
    + rewrite T. unfold start_tag, end_tag. rewrite <- !app_assoc. auto.
    + rewrite app_length, L. auto.
    + rewrite app_length, L. auto.
    + unfold start_tag. rewrite !app_length. change (length (bs "<")) with 1. change (length (bs "</")) with 2. lia.
    + lia.
  - assert (UN : Utf8 name) by (inversion GH; subst; eapply good_name_utf8; eauto).
    cbn [render] in *. assert (A1 := A0). unfold start_tag at 1 in A1. rewrite <- !app_assoc in A1. apply at_adv in A1; auto.
    destruct (OF _ _ _ A1 UN) as [B1 B2]. change (length (bs "<")) with 1 in *. cbn [map fst snd].
    destruct (range_text d _ _ D B1 B2) as (_ & -> & ->).
    rewrite replace_one with (a := pre ++ bs "<") (x := name) (b := render_attrs attrs ++ pad ++ bs ">" ++ post).
    + cbn [renamed render]. unfold start_tag. rewrite <- !app_assoc. auto.
    + rewrite T. unfold start_tag. rewrite <- !app_assoc. auto.
    + rewrite app_length, L. auto.
    + rewrite app_length, L. auto.
  - assert (UN : Utf8 name) by (inversion GH; subst; eapply good_name_utf8; eauto).
    cbn [render] in *. assert (A1 := A0). unfold start_tag at 1 in A1. rewrite <- !app_assoc in A1. apply at_adv in A1; auto.
    destruct (OF _ _ _ A1 UN) as [B1 B2]. change (length (bs "<")) with 1 in *. cbn [map fst snd].
    destruct (range_text d _ _ D B1 B2) as (_ & -> & ->).
    rewrite replace_one with (a := pre ++ bs "<") (x := name) (b := render_attrs attrs ++ pad ++ bs "/>" ++ post).
    + cbn [renamed render]. unfold start_tag. rewrite <- !app_assoc. auto.
    + rewrite T. unfold start_tag. rewrite <- !app_assoc. auto.
    + rewrite app_length, L. auto.
    + rewrite app_length, L. auto.
Qed.

Theorem C29_structure : forall U cs void d c h p new,
  good_doc U cs void (fill c h) -> textdoc_ok d -> d_text d = render_all (fill c h) ->
  on_name h (hole c) (offset_at d p) -> same_width h -> fits U cs void new h ->
  exists roots edits, parse U (d_text d) cs void = Ok roots /\
    do_rename d p new roots = Ok (Some edits) /\
    parse U (edited d edits) cs void = Ok (nodes_all 0 (fill c (renamed new h))) /\
    exists roots', parse U (edited d edits) cs void = Ok roots' /\
    Forall2 (stands_for (edited d edits)) (doc_nodes roots') (flat_map elements (fill c (renamed new h))).
Proof.
  intros U cs void d c h p new G D T O W F.
  destruct (C29_rename U cs void d c h p new G D T O W) as (roots & edits & E1 & E2 & E3).
  exists roots, edits. split; auto. split; auto. rewrite E3.
  assert (G' : good_doc U cs void (fill c (renamed new h))).
  { eapply good_swap; [| |exact G]; [destruct h; reflexivity|]. apply good_renamed; auto. eapply good_hole; eauto. }
  split; [apply C21_round_trip; auto|]. apply C21_elements. auto.
Qed.

(** ** A case: the <p> of [demo], renamed from its end tag *)
Definition demo_ctx : ctx :=
  Inside [HDoctype (bs "DocType") (bs " html")] (bs "main")
    [mkHAttr sp (bs "id") (Quoted [] 34%N (bs "a>b")); mkHAttr (bs "  ") (bs "hidden") NoValue] []
    (Here [HText (bs "x & "); HVoid (bs "br") [] sp; HComment (bs " - -- <b> ")] [])
    (bs "main") []
    [HRaw (bs "script") [mkHAttr sp (bs "defer") NoValue] [] (bs "if (a<b && '</p>') {}") [];
     HRaw (bs "style") [] [] [] []].
Definition demo_p : html :=
  HElement (bs "p") [mkHAttr sp (bs "data-n") (Bare sp (bs "4/2"))] []
    [HSelf (bs "my-tag") [mkHAttr sp (bs "k") (Quoted [] 39%N [])] []; HText (bs "end")] (bs "P") sp.
Definition demo_pos : position := mkPos 0 99.
Example C29_demo : demo = fill demo_ctx demo_p /\ good_doc demo_unicode false html5_void (fill demo_ctx demo_p) /\
  textdoc_ok (utf16_doc (render_all demo)) /\
  on_name demo_p (hole demo_ctx) (offset_at (utf16_doc (render_all demo)) demo_pos) /\
  same_width demo_p /\ fits demo_unicode false html5_void (bs "section") demo_p /\
  (do roots <- parse demo_unicode (render_all demo) false html5_void;
   do r <- do_rename (utf16_doc (render_all demo)) demo_pos (bs "section") roots;
   Ok (option_map (edited (utf16_doc (render_all demo))) r)) =
  Ok (Some (bs "<!DocType html><main id=""a>b""  hidden>x & <br ><!-- - -- <b> --><section data-n =4/2><my-tag k=''/>end</section ></main><script defer>if (a<b && '</p>') {}</script><style></style>")).
Proof.
  assert (E : demo = fill demo_ctx demo_p) by reflexivity.
  split; [exact E|]. split; [rewrite <- E; apply demo_good|].
  split; [apply C27_contract; exists (decode (render_all demo)); vm_compute; auto|].
  split; [right; vm_compute; lia|]. split; [reflexivity|].
  split; [split; [name|split; [intros [H|H]; discriminate|cbn; intuition discriminate]]|].
  vm_compute. reflexivity.
Qed.

(** ** Names that do not fit *)
Definition after_rename (t new : string) (p : position) : res (option (list (option str * nat))) :=
  let d := utf16_doc (bs t) in
  do roots <- parse demo_unicode (d_text d) false html5_void;
  do r <- do_rename d p (bs new) roots;
  match r with
  | Some edits => do roots' <- parse demo_unicode (edited d edits) false html5_void;
      Ok (Some (map (fun n => (n_tag n, length (preorder n))) (doc_nodes roots')))
  | None => Ok None
  end.
(** the service accepts any new name: the name of a void element or of a raw text
    element changes the structure, and an empty name or one with a space does not
    name anything *)
Theorem C29_any_name_refuted :
  after_rename "<div><p></p></div>" "main" (mkPos 0 1) = Ok (Some [(Some (bs "main"), 2); (Some (bs "p"), 1)]) /\
  after_rename "<div><p></p></div>" "br" (mkPos 0 1) = Ok (Some [(Some (bs "br"), 1); (Some (bs "p"), 1)]) /\
  after_rename "<div><p></p></div>" "style" (mkPos 0 1) = Ok (Some [(Some (bs "style"), 1)]) /\
  after_rename "<div><p></p></div>" "a b" (mkPos 0 1) = Ok (Some [(Some (bs "a"), 2); (Some (bs "p"), 1)]) /\
  after_rename "<div><p></p></div>" "" (mkPos 0 1) = Ok (Some [(None, 2); (Some (bs "p"), 1)]).
Proof. repeat split; vm_compute; reflexivity. Qed.

Print Assumptions C29_rename.
Print Assumptions C29_structure.
