(** * C64: formatting again settles *)
From Verif Require Import Base Stream Scanner BaseFacts ScannerFacts ScanProps ScanLocal Tree Parser ParseSpec ParseOrder TextDoc
  Formatter FormatFacts FormatWords Render RenderFacts PropRender PropFormat RepoTestsFormat Layout LayoutTree LayoutSettle PropLayout.
From Coq Require Import ZifyBool ZifyNat ZifyN Permutation.

(** ** Specification *)
(** Formatting a document with the text [s] gives one edit that replaces the whole text by [x]. *)
Definition formats (U : unicode) (o : format_options) (cs : bool) (s x : str) : Prop :=
  forall d, d_text d = s -> format U d None o cs = Ok [mkEdit (mkRange (mkPos 0 0) (position_at d (length s))) x].

(** Every element that contains elements contains a line feed. *)
Definition spread_doc (l : list html) : Prop := Forall (fun h => spread (view_of h)) (filter is_element l).
(** Moreover the text before, between and behind the elements in it contains a line feed or is white space. *)
Definition settled_doc (l : list html) : Prop := Forall (fun h => settled (view_of h)) (filter is_element l).

Section Doc.
Variables (U : unicode) (cs : bool) (o : format_options).
Lemma formats_fmt l : good_doc U cs html5_void l -> formats U o cs (render_all l) (fmt o l).
Proof. intros G d E. rewrite (format_good U cs o d l G E), E. reflexivity. Qed.
Lemma step l : good_doc U cs html5_void l -> exists l', good_doc U cs html5_void l' /\ formats U o cs (render_all l) (render_all l') /\
  map view_of (filter is_element l') = map (fun h => next o 0 (view_of h)) (filter is_element l).
Proof.
  intros G. destruct (fmt_next U cs o _ l G) as (l' & G' & R' & V' & _). exists l'. split; auto. split; auto.
  rewrite R'. apply formats_fmt. auto.
Qed.
Lemma fmt_views l l' : map view_of (filter is_element l') = map (fun h => next o 0 (view_of h)) (filter is_element l) ->
  (forall h, In h (filter is_element l) -> out o 0 (next o 0 (view_of h)) = out o 0 (view_of h)) -> fmt o l' = fmt o l.
Proof.
  unfold fmt. intros E H. f_equal. revert E H. generalize (filter is_element l'), (filter is_element l). clear.
  intros a b. revert a. induction b as [|h b IH]; intros [|h' a] E H; try discriminate; auto.
  cbn [map flat_map] in *. inversion E as [[E1 E2]]. rewrite E1, (IH a) by (auto; intros x X; apply H; right; auto).
  rewrite H by (left; auto). reflexivity.
Qed.
Lemma at_once l : good_doc U cs html5_void l -> settled_doc l ->
  exists l', good_doc U cs html5_void l' /\ formats U o cs (render_all l) (render_all l') /\ formats U o cs (render_all l') (render_all l').
Proof.
  intros G S. destruct (fmt_next U cs o _ l G) as (l' & G' & R' & V' & _). exists l'.
  split; [auto|]. split; [rewrite R'; apply formats_fmt; auto|].
  assert (E : fmt o l' = render_all l').
  { rewrite R'. apply fmt_views; auto. intros h I. apply out_again.
    - apply (view_good U cs html5_void). destruct G as [G _]. rewrite Forall_forall in G. apply G. apply filter_In in I. tauto.
    - unfold settled_doc in S. rewrite Forall_forall in S. auto. }
  rewrite <- E at 2. apply formats_fmt. auto.
Qed.
Lemma via_views (P Q : view -> Prop) l l' : (forall v, P v -> Q (next o 0 v)) ->
  map view_of (filter is_element l') = map (fun h => next o 0 (view_of h)) (filter is_element l) ->
  Forall (fun h => P (view_of h)) (filter is_element l) -> Forall (fun h => Q (view_of h)) (filter is_element l').
Proof.
  intros H E F. rewrite Forall_forall in *. intros h I.
  assert (J : In (view_of h) (map view_of (filter is_element l'))) by (apply in_map; auto).
  rewrite E in J. apply in_map_iff in J as (h0 & E0 & J). rewrite <- E0. apply H. auto.
Qed.
End Doc.

(** ** C64 *)
(** A well-formed document changes at most three times: formatting it a fourth time gives the same text. *)
Theorem C64_settles : forall U cs o l, good_doc U cs html5_void l ->
  exists x1 x2 x3, formats U o cs (render_all l) x1 /\ formats U o cs x1 x2 /\ formats U o cs x2 x3 /\ formats U o cs x3 x3.
Proof.
  intros U cs o l G. destruct (step U cs o l G) as (l1 & G1 & F1 & V1). destruct (step U cs o l1 G1) as (l2 & G2 & F2 & V2).
  assert (S1 : spread_doc l1).
  { apply (via_views o (fun _ => True) _ l l1); auto. intros v _. apply spread_next. apply Forall_forall. auto. }
  assert (S2 : settled_doc l2) by (apply (via_views o spread _ l1 l2); auto; intros v S; apply settled_next; auto).
  destruct (at_once U cs o l2 G2 S2) as (l3 & G3 & F3 & F4). eauto 8.
Qed.
Print Assumptions C64_settles.

(** Twice is enough when every element that contains elements goes over several lines. *)
Theorem C64_spread : forall U cs o l, good_doc U cs html5_void l -> spread_doc l ->
  exists x1 x2, formats U o cs (render_all l) x1 /\ formats U o cs x1 x2 /\ formats U o cs x2 x2.
Proof.
  intros U cs o l G S. destruct (step U cs o l G) as (l1 & G1 & F1 & V1).
  assert (S1 : settled_doc l1) by (apply (via_views o spread _ l l1); auto; intros v X; apply settled_next; auto).
  destruct (at_once U cs o l1 G1 S1) as (l2 & G2 & F2 & F3). eauto 8.
Qed.
Print Assumptions C64_spread.

(** Once is enough when, in addition, no text shares its line with an element. *)
Theorem C64_settled : forall U cs o l, good_doc U cs html5_void l -> settled_doc l ->
  exists x, formats U o cs (render_all l) x /\ formats U o cs x x.
Proof. intros U cs o l G S. destruct (at_once U cs o l G S) as (l' & _ & F1 & F2). eauto. Qed.
Print Assumptions C64_settled.

(** ** Documents that meet the hypotheses, and the limits *)
Definition b_tag : html := HElement (bs "b") [] [] [] (bs "b") [].
Definition div (body : list html) : html := HElement (bs "div") [] [] body (bs "div") [].
Definition flat : list html := [div [b_tag; HText (bs "text")]].
Definition broken : list html := [div [HText (LF :: bs "x "); b_tag; HText (bs "text")]].
Definition tidy : list html := [div [HText [LF]; b_tag; HText (LF :: bs " text"); HComment (bs "c"); HText [LF]]].
Lemma div_good body : Forall (good demo_unicode false html5_void) body -> no_split body -> good demo_unicode false html5_void (div body).
Proof.
  intros F N. apply G_element; try name; try blanks; auto.
  - intros [H|H]; discriminate.
  - vm_compute. intuition discriminate.
  - attrs_tac.
  - reflexivity.
Qed.
Lemma b_good : good demo_unicode false html5_void b_tag.
Proof.
  apply G_element; try name; try blanks; auto.
  - intros [H|H]; discriminate.
  - vm_compute. intuition discriminate.
  - attrs_tac.
  - exact I.
  - reflexivity.
Qed.
Lemma text_good s : s <> [] -> all_ascii s = true -> existsb (N.eqb 60) s = false -> good demo_unicode false html5_void (HText s).
Proof.
  intros N A B. constructor. split; auto. split; [apply ascii_utf8; auto|]. intros I. rewrite <- not_true_iff_false in B. apply B.
  apply existsb_exists. exists 60%N. auto.
Qed.
Lemma flat_good : good_doc demo_unicode false html5_void flat.
Proof. split; [|exact I]. constructor; [|constructor]. apply div_good; [|exact I].
  repeat (apply Forall_cons || apply Forall_nil || apply b_good || (apply text_good; [discriminate|reflexivity|reflexivity])).
Qed.
Lemma broken_good : good_doc demo_unicode false html5_void broken.
Proof.
  split; [|exact I]. constructor; [|constructor]. apply div_good; [|exact I].
  repeat (apply Forall_cons || apply Forall_nil || apply b_good || (apply text_good; [discriminate|reflexivity|reflexivity])).
Qed.
Lemma tidy_good : good_doc demo_unicode false html5_void tidy.
Proof.
  split; [|exact I]. constructor; [|constructor]. apply div_good; [|exact I].
  repeat (apply Forall_cons || apply Forall_nil || apply b_good || (apply text_good; [discriminate|reflexivity|reflexivity])).
  constructor; [apply ascii_utf8; reflexivity|]. intros (a & b & E). destruct a as [|? [|? [|? ?]]]; discriminate.
Qed.
Example broken_spread : spread_doc broken.
Proof. constructor; [|constructor]. cbn. auto. Qed.
Example tidy_settled : settled_doc tidy.
Proof.
  constructor; [|constructor]. cbn [view_of tidy div settled]. split; [reflexivity|]. split; [left; reflexivity|].
  cbn [all_kids]. split; [exact I|]. split; [left; reflexivity|exact I].
Qed.
(** Three times are needed. *)
Theorem C64_twice_refuted :
  format_doc two (bs "<div><b></b>text</div>") = Ok (text ["<div>"; "  <b></b>text</div>"]%string) /\
  format_doc two (text ["<div>"; "  <b></b>text</div>"]%string) = Ok (text ["<div>"; "  <b></b>text"; "</div>"]%string) /\
  format_doc two (text ["<div>"; "  <b></b>text"; "</div>"]%string) = Ok (text ["<div>"; "  <b></b>"; "  text"; "</div>"]%string) /\
  format_doc two (text ["<div>"; "  <b></b>"; "  text"; "</div>"]%string) = Ok (text ["<div>"; "  <b></b>"; "  text"; "</div>"]%string) /\
  render_all flat = bs "<div><b></b>text</div>".
Proof. vm_compute. auto 8. Qed.
(** Without a second quote the value takes in the "/>" that each formatting adds. *)
Theorem C64_grows_refuted :
  format_doc two (bs "<a b=""x") = Ok (bs "<a b=""x />") /\
  format_doc two (bs "<a b=""x />") = Ok (bs "<a b=""x /> />") /\
  format_doc two (bs "<a b=""x /> />") = Ok (bs "<a b=""x /> /> />").
Proof. vm_compute. auto. Qed.
