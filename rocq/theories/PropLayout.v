(** * C63: formatting a well-formed document keeps its elements, attributes and words *)
From Verif Require Import Base Stream Scanner BaseFacts ScannerFacts ScanProps ScanLocal Tree Parser ParseSpec ParseOrder TextDoc
  Formatter FormatFacts FormatWords Render RenderFacts PropRender PropFormat RepoTestsFormat Layout LayoutTree.
From Coq Require Import ZifyBool ZifyNat ZifyN Permutation.

(** ** Specification *)
(** A tree without its places in the text: name, whether it is closed, whether it has an end tag, the
    attributes with their values, and the children. *)
Inductive tree := Tree (name : option str) (closed ended : bool) (attrs : list (str * option str)) (children : list tree).
Fixpoint tree_of (n : node) : tree :=
  Tree (n_tag n) (n_closed n) (match n_ets n with Some _ => true | None => false end)
    (map (fun x => (fst x, a_value (snd x))) (n_attrs n)) (map tree_of (n_children n)).

(** ** What is written for a whole document *)
Definition fmt (o : format_options) (l : list html) : str :=
  flat_map (fun h => out o 0 (view_of h)) (filter is_element l) ++ (if end_with_newline o then [LF] else []).

Lemma out_end o level v : exists a, out o level v = a ++ bs ">".
Proof.
  destruct v as [name attrs|name attrs inner first rest]; cbn [out].
  - destruct (too_long o _).
    + eexists (bs "<" ++ name ++ attrs_text o true level attrs ++ [LF] ++ get_indent o level ++ bs "/").
      rewrite !app_assoc_reverse. reflexivity.
    + eexists (bs "<" ++ name ++ attrs_text o false level attrs ++ bs " /"). rewrite !app_assoc_reverse. reflexivity.
  - eexists. rewrite !app_assoc. reflexivity.
Qed.
Lemma ends_lf_gt a : ends_lf (a ++ bs ">") = false.
Proof. unfold ends_lf. rewrite rev_app_distr. reflexivity. Qed.
Lemma ends_outs o l : ends_lf (flat_map (fun h => out o 0 (view_of h)) l) = false.
Proof.
  induction l as [|h l IH] using rev_ind; auto. rewrite flat_map_app. cbn [flat_map]. rewrite app_nil_r.
  destruct (out_end o 0 (view_of h)) as [a ->]. rewrite app_assoc. apply ends_lf_gt.
Qed.
Lemma indent_0 o : get_indent o 0 = [].
Proof. unfold get_indent. rewrite Nat.mul_0_r. destruct (insert_spaces o); reflexivity. Qed.

Section Doc.
Variables (U : unicode) (cs : bool) (o : format_options).

Lemma roots_out void t s l : Utf8 t -> Forall (good U cs void) l -> forall p, at_ t p (render_all l ++ s) ->
  beautify_roots t o (nodes_all p l) = Ok (flat_map (fun h => out o 0 (view_of h)) (filter is_element l)).
Proof.
  intros HU. induction 1 as [|h l G F IH]; intros p A; auto.
  unfold nodes_all. cbn [nodes_with filter]. change (nodes_with nodes_from ?x l) with (nodes_all x l).
  cbn [render_all flat_map] in A. change (flat_map render l) with (render_all l) in A. rewrite app_assoc_reverse in A.
  assert (A2 : at_ t (p + length (render h)) (render_all l ++ s)).
  { apply at_adv in A; auto. eapply render_utf8; eauto. }
  destruct (is_element h) eqn:E.
  - destruct (node_out_ok o U cs void t HU h G E p _ 0 A) as (n & N1 & _ & _ & N4). rewrite N1. cbn [app beautify_roots].
    rewrite N4. cbn [bind]. rewrite (IH _ A2). cbn [bind flat_map]. rewrite indent_0. reflexivity.
  - replace (nodes_from p h) with (@nil node) by (destruct h; try discriminate; reflexivity). cbn [app]. auto.
Qed.
Lemma body_self s : Utf8 s -> (s = [] \/ exists r, s = 60%N :: r) -> body s s.
Proof.
  intros Us H. exists []. split; [auto|]. split; [split; [apply utf8_nil|reflexivity]|]. split; [auto|]. intros c r D.
  destruct H as [->|[x ->]]; [discriminate|]. change (60%N :: x) with (bs "<" ++ x) in D.
  rewrite decode_app in D by (apply ascii_utf8; reflexivity). cbn in D. inversion D; subst. reflexivity.
Qed.
Lemma no_lead_start void l : Forall (good U cs void) l -> no_lead l -> render_all l = [] \/ exists r, render_all l = 60%N :: r.
Proof.
  intros F H. destruct l as [|h l]; auto. right. destruct h; [destruct H|..]; cbn; eauto.
Qed.
Lemma trim_doc void l : good_doc U cs void l ->
  exists l0, good_doc U cs void l0 /\ trim_left (render_all l) = render_all l0 /\ filter is_element l0 = filter is_element l.
Proof.
  intros [F NS]. pose proof (all_utf8 U cs void l F) as Ul. pose proof (trim_left_body _ Ul) as B.
  destruct l as [|h r].
  - exists []. split; [split; [constructor|exact I]|]. split; reflexivity.
  - assert (D : (exists x, h = HText x) \/ no_lead (h :: r)) by (destruct h; cbn; eauto).
    destruct D as [[x ->]|NL].
    + inversion F as [|? ? G FR]; subst. inversion G as [? (T1 & T2 & T3)| | | | | | |]; subst. pose proof (no_split_text _ _ NS) as NL.
      pose proof (trim_left_body x T2) as (w & X & W & V & N). set (x0 := trim_left x) in *. clearbody x0.
      exists (tcons x0 r). split; [split|].
      * destruct x0 as [|b x1] eqn:X0; auto. constructor; auto. constructor. split; [discriminate|]. split; [auto|].
        intros I. apply T3. rewrite X. apply in_or_app. auto.
      * apply no_split_tcons; auto. eapply no_split_tail; eauto.
      * split; [|destruct x0; reflexivity]. rewrite render_tcons. apply (body_det _ _ _ B).
        exists w. cbn [render_all flat_map render]. change (flat_map render r) with (render_all r). split; [rewrite X at 1; apply app_assoc_reverse|]. split; [auto|].
        split; [apply utf8_app; auto; eapply all_utf8; eauto|]. intros c y D. rewrite decode_app in D by auto.
        destruct (decode x0) as [|c0 y0] eqn:D0; [|cbn [app] in D; inversion D; subst; eapply N; eauto].
        cbn [app] in D. destruct (no_lead_start void r FR NL) as [R|[z R]]; rewrite R in D; [discriminate|].
        change (60%N :: z) with (bs "<" ++ z) in D. rewrite decode_app in D by (apply ascii_utf8; reflexivity). cbn in D. inversion D; subst. reflexivity.
    + exists (h :: r). split; [split; auto|]. split; [|auto]. apply (body_det _ _ _ B). apply body_self; auto.
      eapply no_lead_start; eauto.
Qed.
Lemma format_good d l : good_doc U cs html5_void l -> d_text d = render_all l ->
  format U d None o cs = Ok [mkEdit (mkRange (mkPos 0 0) (position_at d (length (d_text d)))) (fmt o l)].
Proof.
  intros G E. destruct (trim_doc _ _ G) as (l0 & G0 & T & FE). unfold format, format_value. rewrite E at 1. rewrite T.
  unfold html_beautify. rewrite (C21_round_trip _ _ _ _ G0). cbn [bind].
  pose proof (all_utf8 U cs _ l0 (proj1 G0)) as U0.
  rewrite (roots_out html5_void (render_all l0) [] l0); [|auto|apply G0|].
  - cbn [bind]. rewrite FE, ends_outs. cbn [negb andb]. unfold fmt. cbn [reindent Nat.ltb Nat.leb].
    destruct (end_with_newline o); rewrite ?app_nil_r; reflexivity.
  - rewrite app_nil_r. split; [reflexivity|apply Bd_0; auto].
Qed.
Lemma elements_next void l : Forall (good U cs void) l -> exists l', Forall (good U cs void) l' /\ forallb is_element l' = true /\
  render_all l' = flat_map (fun h => out o 0 (view_of h)) (filter is_element l) /\
  map view_of l' = map (fun h => next o 0 (view_of h)) (filter is_element l) /\
  outlines l' = outlines (filter is_element l).
Proof.
  induction 1 as [|h l G F IH]; [exists []; split; [constructor|auto]|]. destruct IH as (l' & G' & E' & R' & V' & O').
  cbn [filter]. destruct (is_element h) eqn:E; [|exists l'; auto].
  destruct (next_ok_all U cs void o h G E 0) as (h' & Gh & Eh & Rh & Vh & Oh).
  exists (h' :: l'). split; [auto|]. split; [cbn; rewrite Eh; auto|]. split; [|split].
  - cbn [render_all flat_map]. change (flat_map render l') with (render_all l'). rewrite Rh, R'. reflexivity.
  - cbn [map]. rewrite Vh, V'. reflexivity.
  - unfold outlines in *. cbn [flat_map]. rewrite Oh, O'. reflexivity.
Qed.
Lemma fmt_next void l : good_doc U cs void l -> exists l', good_doc U cs void l' /\ render_all l' = fmt o l /\
  map view_of (filter is_element l') = map (fun h => next o 0 (view_of h)) (filter is_element l) /\
  outlines l' = outlines (filter is_element l).
Proof.
  intros [F NS]. destruct (elements_next void l F) as (l' & G' & E' & R' & V' & O').
  assert (FE : filter is_element l' = l').
  { clear - E'. induction l' as [|h l IH]; auto. cbn in *. apply andb_true_iff in E' as [E1 E2]. rewrite E1, IH; auto. }
  exists (l' ++ (if end_with_newline o then [HText [LF]] else [])). split; [split|split; [|split]].
  - apply Forall_app. split; auto. destruct (end_with_newline o); [|constructor]. constructor; [|constructor]. constructor.
    split; [discriminate|]. split; [apply ascii_utf8; reflexivity|cbn; intuition discriminate].
  - clear - E'. induction l' as [|h l IH]; cbn [app]; [destruct (end_with_newline o); exact I|].
    cbn in E'. apply andb_true_iff in E' as [E1 E2]. apply no_split_cons; auto.
  - rewrite render_app, R'. unfold fmt. destruct (end_with_newline o); reflexivity.
  - rewrite filter_app, FE, map_app, V'. destruct (end_with_newline o); cbn; rewrite app_nil_r; auto.
  - unfold outlines in *. rewrite flat_map_app, O'. destruct (end_with_newline o); cbn [flat_map]; [|apply app_nil_r].
    cbn [outline_of]. rewrite (tw_white [LF]) by apply white_lf. cbn. rewrite app_nil_r. reflexivity.
Qed.
End Doc.

(** ** The tree of an outline *)
Fixpoint outline_tree (x : outline) : list tree :=
  match x with
  | OText _ | OComment _ | ODoctype _ _ => []
  | OElement name attrs body => [Tree (Some name) true true attrs (flat_map outline_tree body)]
  | ORaw name attrs _ => [Tree (Some name) true true attrs []]
  | OEmpty name attrs => [Tree (Some name) true false attrs []]
  end.
Lemma nodes_tree h : forall p, map tree_of (nodes_from p h) = flat_map outline_tree (outline_of h).
Proof.
  revert h. fix IH 1. intros h p.
  destruct h as [x|x|w x|name attrs pad body close pad2|name attrs pad x pad2|name attrs pad|name attrs pad]; try reflexivity.
  - cbn [nodes_from outline_of flat_map outline_tree]. unfold otext. destruct (text_words x); reflexivity.
  - cbn [nodes_from map tree_of outline_of flat_map outline_tree n_tag n_closed n_ets n_attrs n_children app]. rewrite attrs_from_plain.
    f_equal. f_equal. generalize (p + length (start_tag name attrs pad (bs ">"))). clear - IH. revert body. fix IHl 1. intros body q.
    destruct body as [|h r]; [reflexivity|]. cbn [nodes_with flat_map]. rewrite map_app, flat_map_app, IH. f_equal. apply IHl.
  - cbn [nodes_from map tree_of outline_of flat_map outline_tree n_tag n_closed n_ets n_attrs n_children app]. rewrite ?attrs_from_plain. reflexivity.
  - cbn [nodes_from map tree_of outline_of flat_map outline_tree n_tag n_closed n_ets n_attrs n_children app]. rewrite ?attrs_from_plain. reflexivity.
  - cbn [nodes_from map tree_of outline_of flat_map outline_tree n_tag n_closed n_ets n_attrs n_children app]. rewrite ?attrs_from_plain. reflexivity.
Qed.
Lemma nodes_all_tree l : forall p, map tree_of (nodes_all p l) = flat_map outline_tree (outlines l).
Proof.
  induction l as [|h l IH]; intros p; auto. unfold nodes_all, outlines in *. cbn [nodes_with flat_map].
  rewrite map_app, flat_map_app, nodes_tree, IH. reflexivity.
Qed.
Lemma outline_elements l : flat_map outline_tree (outlines (filter is_element l)) = flat_map outline_tree (outlines l).
Proof.
  induction l as [|h l IH]; auto. unfold outlines in *. cbn [filter]. destruct (is_element h) eqn:E.
  - cbn [flat_map]. rewrite !flat_map_app, IH. reflexivity.
  - cbn [flat_map]. rewrite flat_map_app, IH. destruct h; try discriminate; try reflexivity.
    cbn [outline_of]. unfold otext. destruct (text_words s); reflexivity.
Qed.

(** ** C63 *)
(** The parsed tree of the formatted text is the parsed tree of the text, places apart. *)
Theorem C63_same_tree : forall U d o cs l, good_doc U cs html5_void l -> d_text d = render_all l ->
  exists x roots roots',
    format U d None o cs = Ok [mkEdit (mkRange (mkPos 0 0) (position_at d (length (d_text d)))) x] /\
    parse U (d_text d) cs html5_void = Ok roots /\ parse U x cs html5_void = Ok roots' /\
    map tree_of roots' = map tree_of roots.
Proof.
  intros U d o cs l G E. destruct (fmt_next U cs o _ l G) as (l' & G' & R' & _ & O').
  exists (fmt o l), (nodes_all 0 l), (nodes_all 0 l'). split; [apply format_good; auto|].
  split; [rewrite E; apply C21_round_trip; auto|]. split; [rewrite <- R'; apply C21_round_trip; auto|].
  rewrite !nodes_all_tree, O'. apply outline_elements.
Qed.
Print Assumptions C63_same_tree.

(** The formatted text is again a well-formed document, with the same outline: the same elements, attributes,
    comments and words in the same nesting, except what is outside all elements. *)
Theorem C63_same_outline : forall U d o cs l, good_doc U cs html5_void l -> d_text d = render_all l ->
  exists l',
    format U d None o cs = Ok [mkEdit (mkRange (mkPos 0 0) (position_at d (length (d_text d)))) (render_all l')] /\
    good_doc U cs html5_void l' /\ outlines l' = outlines (filter is_element l).
Proof.
  intros U d o cs l G E. destruct (fmt_next U cs o _ l G) as (l' & G' & R' & _ & O').
  exists l'. split; [rewrite R'; apply format_good; auto|auto].
Qed.
Print Assumptions C63_same_outline.

(** ** A document that meets the hypotheses, and one that does not *)
Example C63_demo : exists roots roots',
  format_doc two (render_all demo) = Ok (fmt two demo) /\
  parse demo_unicode (render_all demo) false html5_void = Ok roots /\
  parse demo_unicode (fmt two demo) false html5_void = Ok roots' /\
  map tree_of roots' = map tree_of roots /\ map n_start roots' <> map n_start roots /\
  fmt two demo = text ["<main id=""a>b"" hidden>x &"; "  <br /><!-- - -- <b> -->"; "  <p data-n=4/2>";
    "    <my-tag k='' />end</p></main><script defer>if (a<b && '</p>') {}</script><style></style>"]%string.
Proof.
  destruct (C63_same_tree demo_unicode (utf16_doc (render_all demo)) two false demo demo_good eq_refl) as (x & roots & roots' & F & P & P' & E).
  rewrite (format_good demo_unicode false two (utf16_doc (render_all demo)) demo demo_good eq_refl) in F. inversion F; subst x.
  exists roots, roots'. split; [|split; [exact P|split; [exact P'|split; [exact E|]]]].
  - unfold format_doc. rewrite (format_good demo_unicode false two (utf16_doc (render_all demo)) demo demo_good eq_refl). reflexivity.
  - change (d_text (utf16_doc (render_all demo))) with (render_all demo) in P.
    rewrite (C21_round_trip demo_unicode false html5_void demo demo_good) in P. apply Ok_inj in P. subst roots. split; [|vm_compute; reflexivity].
    destruct roots' as [|n r]; [vm_compute; discriminate|]. intros C.
    assert (N : n_start n = 0); [|cbn [map] in C; rewrite N in C; vm_compute in C; discriminate].
    revert P'. vm_compute. intros P'. inversion P'. reflexivity.
Qed.
(** An element that is not closed loses what it contains. *)
Theorem C63_unclosed_refuted : exists roots roots',
  format_doc two (bs "<p>lost<b>too</b>") = Ok (bs "<p />") /\
  parse demo_unicode (bs "<p>lost<b>too</b>") false html5_void = Ok roots /\
  parse demo_unicode (bs "<p />") false html5_void = Ok roots' /\ map tree_of roots' <> map tree_of roots.
Proof. eexists _, _. split; [vm_compute; reflexivity|]. split; [vm_compute; reflexivity|]. split; [vm_compute; reflexivity|]. discriminate. Qed.
