(** * C81: the helpers for typing in well-formed documents *)
From Verif Require Import SelectionRange PropTags PropSelection Base BaseFacts Stream Scanner ScannerFacts ScanStep ScanProps ScanShape ScanPanic Tree
  Parser ParseSpec ParseInv ParseOrder PropParse TreeFacts PropTree ParseEnd PropEnd TextDoc PropDoc
  SelAttr TokenLoop NodeScan DataManager PropData BuiltinData Entities Hover Completion PropTagComplete
  PropHover PropComplete PropEdits PropAnswers PropProposals Render RenderFacts PropRender PropRename FormatFacts FormatWords PropLinks LayoutTree ParseKeep PropTyped PropScan ScanComplete
  PropAccept Lexing PropTokens PropTagDoc PropHoverTree PropCompleteTree.
From Coq Require Import ZifyBool ZifyNat ZifyN.

(** ** The element a piece is written for *)
Lemma split_piece (A B p q : list piece) x : A ++ B = p ++ x :: q ->
  (exists r, A = p ++ x :: r /\ q = r ++ B) \/ (exists r, p = A ++ r /\ B = r ++ x :: q).
Proof.
  revert p. induction A as [|y A IH]; intros p E; cbn [app] in E.
  - right. exists p. auto.
  - destruct p as [|z p]; cbn [app] in E.
    + left. exists A. injection E as -> <-. auto.
    + injection E as -> E. destruct (IH p E) as [(r & -> & ->)|(r & -> & ->)]; [left|right]; exists r; auto.
Qed.
(** [A] is what stands in front of the piece in [h], and the piece is not in the body of [h]. *)
Definition own_piece (h : html) (A : list piece) (x : piece) : Prop :=
  match h with
  | HElement name attrs pad body close pad2 =>
      (exists B, lex_start name attrs pad (StartTagClose, bs ">") = A ++ x :: B) \/
      (exists A' B, A = lex_start name attrs pad (StartTagClose, bs ">") ++ flat_map lex body ++ A' /\ lex_end close pad2 = A' ++ x :: B)
  | _ => exists B, lex h = A ++ x :: B
  end.
Lemma piece_owner : forall l p x q, flat_map lex l = p ++ x :: q ->
  exists c h A, l = fill c h /\ length (joined p) = hole c + length (joined A) /\ own_piece h A x.
Proof.
  assert (JB : forall l, joined (flat_map lex l) = render_all l) by (intros l; rewrite <- joined_written; apply joined_all).
  assert (Q : forall n l p x q, length (render_all l) <= n -> flat_map lex l = p ++ x :: q ->
    exists c h A, l = fill c h /\ length (joined p) = hole c + length (joined A) /\ own_piece h A x).
  { induction n as [|n IH]; intros l.
    all: induction l as [|h l IL]; intros p x q LN E; [destruct p; discriminate|].
    all: cbn [flat_map] in E; unfold render_all in LN; cbn [flat_map] in LN; rewrite app_length in LN; fold (render_all l) in LN.
    all: apply split_piece in E as [(r & E & _)|(r & -> & E)];
      [|destruct (IL r x q ltac:(lia) E) as (c & k & A & -> & L & O); rewrite joined_app, app_length, joined_lex;
        destruct c as [b a|b name attrs pad c close pad2 a]; cbn [fill hole] in *;
          [exists (Here (h :: b) a), k, A|exists (Inside (h :: b) name attrs pad c close pad2 a), k, A]; (split; [reflexivity|]); (split; [|exact O]);
          cbn [hole]; unfold render_all; cbn [flat_map]; rewrite !app_length; fold (render_all b); lia].
    all: assert (HERE : own_piece h p x -> exists c k A, h :: l = fill c k /\ length (joined p) = hole c + length (joined A) /\ own_piece k A x)
      by (intros O; exists (Here [] l), h, p; split; [reflexivity|]; split; [reflexivity|exact O]).
    all: destruct h as [z|z|w z|name attrs pad body close pad2|name attrs pad z pad2|name attrs pad|name attrs pad]; try (apply HERE; exists r; exact E).
    all: cbn [lex] in E; apply split_piece in E as [(r1 & E & _)|(r1 & -> & E)]; [apply HERE; left; exists r1; exact E|];
      apply split_piece in E as [(r2 & E & _)|(r2 & -> & E)]; [|apply HERE; right; exists r2, r; auto].
    all: cbn [render] in LN; rewrite !app_length in LN; unfold start_tag in LN; rewrite !app_length in LN; change (length (bs "<")) with 1 in LN.
    - exfalso. lia.
    - destruct (IH body r1 x r2) as (c & k & A & -> & L & O); [unfold render_all; lia|exact E|].
      exists (Inside [] name attrs pad c close pad2 l), k, A. split; [reflexivity|]. split; [|exact O].
      rewrite joined_app, joined_start, app_length. cbn [hole]. change (length (render_all [])) with 0. lia. }
  intros l p x q E. apply (Q (length (render_all l)) l p x q); auto.
Qed.
(** Only start tags have names of attributes, and only end tags have '</'. *)
Lemma attrs_pieces l k w : In (k, w) (flat_map lex_attr l) -> k = Whitespace \/ k = AttributeName \/ k = DelimiterAssign \/ k = AttributeValue.
Proof.
  intros I. apply in_flat_map in I as (a & _ & I). unfold lex_attr in I. cbn [app] in I.
  destruct (ha_value a); cbn [lex_value app In] in I; repeat (destruct I as [I|I]; [inversion I; auto|]); destruct I.
Qed.
Lemma start_pieces name attrs pad ks stop k w : In (k, w) (lex_start name attrs pad (ks, stop)) -> 
  k = StartTagOpen \/ k = StartTag \/ k = Whitespace \/ k = AttributeName \/ k = DelimiterAssign \/ k = AttributeValue \/ k = ks.
Proof.
  unfold lex_start. rewrite !in_app_iff. intros [I|[I|I]].
  - cbn [In] in I. destruct I as [I|[I|[]]]; inversion I; auto.
  - apply attrs_pieces in I. intuition.
  - cbn [In] in I. destruct I as [I|[I|[]]]; inversion I; auto 10.
Qed.
Lemma end_open_owner h o A w : own_piece h A (EndTagOpen, w) -> w <> [] -> tail_at h o = Some (o + length (joined A)) /\ w = bs "</".
Proof.
  assert (EN : forall close pad2 A' B, lex_end close pad2 = A' ++ (EndTagOpen, w) :: B -> A' = [] /\ w = bs "</").
  { intros close pad2 A' B E. unfold lex_end in E. destruct A' as [|a1 A']; [injection E as <- _; auto|]. cbn [app] in E.
    apply (f_equal (@tl piece)) in E. cbn [tl] in E. assert (I : In (EndTagOpen, w) (A' ++ (EndTagOpen, w) :: B)) by apply in_elt. rewrite <- E in I. cbn [In] in I. intuition discriminate. }
  assert (ST : forall name attrs pad ks stop B, ks = StartTagClose \/ ks = StartTagSelfClose -> lex_start name attrs pad (ks, stop) = A ++ (EndTagOpen, w) :: B -> False).
  { intros name attrs pad ks stop B K E. assert (I : In (EndTagOpen, w) (lex_start name attrs pad (ks, stop))) by (rewrite E; apply in_elt).
    apply start_pieces in I. destruct K; subst ks; intuition discriminate. }
  assert (FL : forall L B, L = A ++ (EndTagOpen, w) :: B -> In (EndTagOpen, w) L) by (intros L B ->; apply in_elt).
  intros O NE. destruct h as [z|z|w' z|name attrs pad body close pad2|name attrs pad z pad2|name attrs pad|name attrs pad]; cbn [own_piece lex] in O.
  - destruct O as (B & E). apply FL in E. cbn in E. intuition discriminate.
  - destruct O as (B & E). apply FL in E. cbn [In] in E. intuition discriminate.
  - destruct O as (B & E). apply FL in E. cbn [In] in E. intuition discriminate.
  - destruct O as [(B & E)|(A' & B & -> & E)]; [exfalso; eauto|]. apply EN in E as [-> ->]. split; [|reflexivity]. cbn [tail_at head].
    rewrite app_nil_r, joined_app, joined_start, app_length. f_equal. rewrite <- (joined_written (flat_map lex body)). change (filter written (flat_map lex body)) with (lex_all body). rewrite joined_all. lia.
  - destruct O as (B & E). apply split_piece in E as [(r & E & _)|(r & -> & E)]; [exfalso; eauto|]. apply split_piece in E as [(r' & E & _)|(r' & -> & E)].
    + exfalso. assert (I : In (EndTagOpen, w) [((if beq name (bs "script") then Script else Styles), z)]) by (rewrite E; apply in_elt). cbn [In] in I.
      destruct I as [I|[]]. destruct (beq name (bs "script")); discriminate.
    + apply EN in E as [-> ->]. split; [|reflexivity]. cbn [tail_at head]. rewrite app_nil_r, joined_app, joined_start, app_length. cbn [joined flat_map snd]. rewrite app_nil_r. f_equal. lia.
  - destruct O as (B & E). exfalso; eauto.
  - destruct O as (B & E). exfalso; eauto.
Qed.
Lemma elt_of (L A : list piece) x B : L = A ++ x :: B -> In x L.
Proof. intros ->. apply in_elt. Qed.
Lemma attr_piece : forall l p w q, flat_map lex_attr l = p ++ (AttributeName, w) :: q ->
  exists l1 a l2, l = l1 ++ a :: l2 /\ w = ha_name a /\ joined p = render_attrs l1 ++ ha_space a.
Proof.
  induction l as [|a l IH]; intros p w q E; [destruct p; discriminate|]. cbn [flat_map] in E. apply split_piece in E as [(r & E & _)|(r & -> & E)].
  - exists [], a, l. unfold lex_attr in E. cbn [app] in E. destruct p as [|x1 p]; [discriminate|]. cbn [app] in E.
    assert (X1 : x1 = (Whitespace, ha_space a)) by (apply (f_equal (@hd_error piece)), Some_inj in E; auto). subst x1.
    apply (f_equal (@tl piece)) in E. cbn [tl] in E. destruct p as [|x2 p]; cbn [app] in E.
    + apply (f_equal (@hd_error piece)), Some_inj, pair_equal_spec in E as [_ E]. split; [reflexivity|]. split; [auto|]. cbn [joined flat_map snd render_attrs app]. apply app_nil_r.
    + exfalso. apply (f_equal (@tl piece)) in E. cbn [tl] in E. assert (I := elt_of _ _ _ _ E).
      destruct (ha_value a); cbn [lex_value In] in I; intuition discriminate.
  - destruct (IH r w q E) as (l1 & b & l2 & -> & W & J). exists (a :: l1), b, l2. split; [reflexivity|]. split; [auto|].
    rewrite joined_app, J, app_assoc. f_equal. pose proof (joined_attrs [a]) as Q. unfold render_attrs in *. cbn [flat_map] in *. rewrite !app_nil_r in Q. rewrite Q. reflexivity.
Qed.
Lemma attr_owner h A w : own_piece h A (AttributeName, w) -> is_element h /\ exists l1 a l2, h_attrs h = l1 ++ a :: l2 /\ w = ha_name a /\
  length (joined A) = 1 + length (h_name h) + length (render_attrs l1) + length (ha_space a).
Proof.
  assert (ST : forall name attrs pad ks stop B, ks = StartTagClose \/ ks = StartTagSelfClose -> lex_start name attrs pad (ks, stop) = A ++ (AttributeName, w) :: B ->
    exists l1 a l2, attrs = l1 ++ a :: l2 /\ w = ha_name a /\ length (joined A) = 1 + length name + length (render_attrs l1) + length (ha_space a)).
  { intros name attrs pad ks stop B K E. unfold lex_start in E. apply split_piece in E as [(r & E & _)|(r & -> & E)].
    { exfalso. assert (I := elt_of _ _ _ _ E). cbn [In] in I. intuition discriminate. }
    apply split_piece in E as [(r2 & E & _)|(r2 & -> & E)].
    - apply attr_piece in E as (l1 & a & l2 & -> & W & J). exists l1, a, l2. split; [auto|]. split; [auto|]. rewrite joined_app, J, !app_length. cbn [joined flat_map snd].
      rewrite !app_length. change (length (bs "<")) with 1. cbn [length]. lia.
    - exfalso. assert (I := elt_of _ _ _ _ E). cbn [In] in I. destruct K; subst ks; intuition discriminate. }
  assert (EN : forall close pad2 A' B, lex_end close pad2 = A' ++ (AttributeName, w) :: B -> False).
  { intros close pad2 A' B E. assert (I := elt_of _ _ _ _ E). unfold lex_end in I. cbn [In] in I. intuition discriminate. }
  assert (FL : forall L B, L = A ++ (AttributeName, w) :: B -> In (AttributeName, w) L) by (intros L B ->; apply in_elt).
  intros O. destruct h as [z|z|w' z|name attrs pad body close pad2|name attrs pad z pad2|name attrs pad|name attrs pad]; cbn [own_piece lex] in O.
  - destruct O as (B & E). apply FL in E. cbn in E. intuition discriminate.
  - destruct O as (B & E). apply FL in E. cbn [In] in E. intuition discriminate.
  - destruct O as (B & E). apply FL in E. cbn [In] in E. intuition discriminate.
  - split; [exact I|]. destruct O as [(B & E)|(A' & B & _ & E)]; [|exfalso; eauto]. eapply ST; [|exact E]. auto.
  - split; [exact I|]. destruct O as (B & E). apply split_piece in E as [(r & E & _)|(r & -> & E)]; [eapply ST; [|exact E]; auto|]. exfalso. apply split_piece in E as [(r' & E & _)|(r' & -> & E)]; [|eauto].
    assert (I := elt_of _ _ _ _ E). cbn [In] in I. destruct I as [I|[]]. destruct (beq name (bs "script")); discriminate.
  - split; [exact I|]. destruct O as (B & E). eapply ST; [|exact E]. auto.
  - split; [exact I|]. destruct O as (B & E). eapply ST; [|exact E]. auto.
Qed.

Section Doc.
Variables (U : unicode) (cs : bool) (void : list str) (d : textdoc) (l : list html).
Hypothesis HG : good_doc U cs void l.
Hypothesis HD : textdoc_ok d.
Hypothesis HT : d_text d = render_all l.
Notation t := (d_text d).
Notation roots := (nodes_all 0 l).
Let HU : Utf8 t := do_utf8 _ HD.
Lemma doc_parsed : parse U t cs void = Ok roots.
Proof. rewrite HT. apply C21_round_trip. auto. Qed.
Lemma doc_pieces : exists ks, doc_tokens U t cs = Ok ks /\ (forall o, finished ks o) /\
  forall k, In k ks -> exists c h A w, l = fill c h /\ w <> [] /\ tk_off k = hole c + length (joined A) /\ tk_end k = tk_off k + length w /\ own_piece h A (tk_type k, w).
Proof.
  destruct (tokens_placed U cs void d l HG HT) as (ks & T & P). exists ks. split; [auto|].
  assert (Q : forall k, In k ks -> exists c h A w, l = fill c h /\ w <> [] /\ tk_off k = hole c + length (joined A) /\ tk_end k = tk_off k + length w /\ own_piece h A (tk_type k, w)).
  { intros k K. assert (I : In (tk_type k, tk_off k, tk_end k) (place 0 (filter written (flat_map lex l)))) by (rewrite <- P; exact (in_map seen ks k K)).
    apply place_in in I as (p & w & q & E & W & A & B). destruct (piece_owner l p _ q E) as (c & h & A' & El & L & O). exists c, h, A', w. split; [auto|]. split; [auto|]. split; [lia|]. auto. }
  split; [|exact Q]. intros o k K _. destruct (Q k K) as (c & h & A & w & _ & W & _ & E & _). destruct w; [congruence|]. cbn [length] in E. lia.
Qed.

Section Place.
Variables (c : ctx) (h : html).
Hypothesis El : l = fill c h.
(** What is open in front of the end tag of an element. *)
Lemma around_end e m : tail_at h (hole c) = Some e -> In m (doc_nodes roots) -> PropEnd.open_at e m -> n_ets m <> Some e ->
  n_start m < hole c /\ hole c < n_end m.
Proof.
  intros TE M (s & S1 & S2 & S3) NE. assert (EL : is_element h) by (destruct h; try discriminate; exact I).
  assert (GH : good U cs void h) by (apply good_hole with (c := c); rewrite <- El; auto).
  destruct (element_facts U cs void h GH EL) as (lead & more & pad & stop & ks & F). destruct (f_node _ _ _ _ _ _ _ F (hole c)) as (n & N & N1 & N2 & N3 & N4 & N5 & N6).
  destruct (hole_node c h n 0 N) as [IN HN]. rewrite <- El in IN, HN. cbn [Nat.add] in HN.
  destruct (tail_after U cs void h (hole c) e GH TE) as [T1 T2]. pose proof (nodes_closed l 0 m M) as CL.
  assert (SP := span U d cs void roots HD doc_parsed m M). unfold span_ok in SP. rewrite S1 in SP.
  assert (LX : n_start m <= e < n_end m).
  { destruct S3 as [S3|[_ S3]]; [|congruence]. destruct SP as (P1 & P2 & P3). destruct (n_ets m); lia. }
  assert (NM : m <> n) by (intros ->; congruence).
  assert (HL : 0 < length (head h)) by (rewrite (f_head _ _ _ _ _ _ _ F); unfold start_tag; rewrite app_length; change (length (bs "<")) with 1; lia).
  destruct (HN m e M LX ltac:(lia)) as [[Q1 Q2]|[Q|Q]]; [|contradiction|].
  - split; [|lia]. destruct (Nat.eq_dec (n_start m) (hole c)) as [E|E]; [|lia]. exfalso. apply NM.
    apply (same_start U d cs void roots HD doc_parsed); auto. lia.
  - exfalso. rewrite N6 in Q. destruct h as [| | |name attrs pad' body close pad2|name attrs pad' z pad2| |]; try destruct Q.
    apply bounds_all in Q. cbn [tail_at] in TE. apply Some_inj in TE. lia.
Qed.
Lemma open_outer e : tail_at h (hole c) = Some e ->
  (forall y s, outer c = Some (y, s) -> exists m, innermost_open roots e m /\ n_tag m = Some y) /\
  (outer c = None -> forall m, ~ innermost_open roots e m).
Proof.
  intros TE. assert (EL : is_element h) by (destruct h; try discriminate; exact I).
  assert (GH : good U cs void h) by (apply good_hole with (c := c); rewrite <- El; auto).
  destruct (tail_after U cs void h (hole c) e GH TE) as [T1 T2].
  destruct (element_facts U cs void h GH EL) as (lead & more & pad & stop & ks & F). destruct (f_node _ _ _ _ _ _ _ F (hole c)) as (n & N & N1 & _).
  split.
  - intros y s O. destruct (outer_node c h 0 y s O) as (m & e' & M & M1 & M2 & M3 & M4 & M5 & SUB). specialize (SUB n N). rewrite <- El in M. cbn [Nat.add] in *.
    exists m. split; [|auto]. assert (SP := span U d cs void roots HD doc_parsed m M). unfold span_ok in SP. rewrite M3 in SP. destruct SP as (P1 & P2 & P3).
    destruct (n_ste m) as [ss|] eqn:SS; [|exfalso; tauto].
    assert (CH : ss <= n_start n).
    { apply in_flat_map in SUB as (k & K1 & K2). assert (NK := node_nested U d cs void roots HD doc_parsed m M). inversion NK; subst. match goal with FN : Forall _ (n_children m) |- _ => rewrite Forall_forall in FN; pose proof (preorder_bounds k (FN k K1) n K2) end.
      destruct P3 as (_ & _ & _ & Q). pose proof (chain_bounds _ _ _ _ Q K1). lia. }
    split; [exact M|]. split; [exists ss; split; [auto|]; split; [lia|]; left; lia|]. split; [rewrite M3; intros Q; apply Some_inj in Q; lia|].
    intros m' I' O' NE'. destruct (around_end e m' TE I' O' NE') as [A1 A2]. rewrite El in I'. destruct (outer_last c h 0 m' I') as (y' & s' & O2 & L); [lia|lia|]. rewrite O in O2. apply Some_inj, pair_equal_spec in O2 as [_ <-]. lia.
  - intros O m (M & O' & NE' & _). destruct (around_end e m TE M O' NE') as [A1 A2]. rewrite El in M. destruct (outer_last c h 0 m M) as (y' & s' & O2 & L); [lia|lia|]. congruence.
Qed.
End Place.
End Doc.

(** ** What the helpers answer *)
(** The cursor is behind the '>' of the start tag of an element that is not declared void and whose
    end tag does not follow at once. *)
Definition behind_start_tag (l : list html) (providers : list provider) (lang : str) (x : nat) (name : str) : Prop :=
  exists c h, l = fill c h /\ is_element h /\ (forall n a p, h <> HSelf n a p) /\ h_name h = name /\
    x = hole c + length (head h) /\ tail_at h (hole c) <> Some x /\ ~ declared_void providers lang name.
(** The cursor is behind the '</' of an end tag, and the element of that end tag is in an element
    called [name]. *)
Definition behind_slash (l : list html) (x : nat) (name : str) : Prop :=
  exists c h e o, l = fill c h /\ tail_at h (hole c) = Some e /\ x = e + 2 /\ outer c = Some (name, o).

Section Answers.
Variables (U : unicode) (cs : bool) (void : list str) (d : textdoc) (l : list html).
Hypothesis HG : good_doc U cs void l.
Hypothesis HD : textdoc_ok d.
Hypothesis HT : d_text d = render_all l.
Notation t := (d_text d).
Notation roots := (nodes_all 0 l).
Let HU : Utf8 t := do_utf8 _ HD.

Lemma start_stop c h : l = fill c h -> is_element h -> exists ks k, doc_tokens U t cs = Ok ks /\ In k ks /\
  tk_end k = hole c + length (head h) /\ tk_off k < tk_end k /\
  ((forall n a p, h <> HSelf n a p) -> tk_type k = StartTagClose) /\ (forall n a p, h = HSelf n a p -> tk_type k = StartTagSelfClose).
Proof.
  intros El EL. assert (HG' := HG). rewrite El in HG'. assert (HT' := HT). rewrite El in HT'.
  assert (GO : forall ty w A B, w <> [] -> lex h = A ++ (ty, w) :: B -> length (joined A) + length w = length (head h) ->
    exists ks k, doc_tokens U t cs = Ok ks /\ In k ks /\ tk_end k = hole c + length (head h) /\ tk_off k < tk_end k /\ tk_type k = ty).
  { intros ty w A B W E L. destruct (token_here U cs void d c h HG' HT' ty (hole c + length (joined A)) (hole c + length (joined A) + length w)) as (ks & tk & T & K & TY & TO & TE).
    - apply place_in. exists A, w, B. auto.
    - exists ks, tk. split; [auto|]. split; [auto|]. split; [lia|]. split; [destruct w; [congruence|cbn [length] in *; lia]|auto]. }
  destruct h as [| | |name' attrs pad body close pad2|name' attrs pad z pad2|name' attrs pad|name' attrs pad]; try destruct EL.
  1-3: (match type of GO with context [lex ?g] => assert (P' : exists A B, lex g = A ++ (StartTagClose, bs ">") :: B /\ length (joined A) + 1 = length (head g)) end;
    [exists ([(StartTagOpen, bs "<"); (StartTag, name')] ++ flat_map lex_attr attrs ++ [(Whitespace, pad)]); eexists;
      (split; [cbn [lex]; unfold lex_start; rewrite <- !app_assoc; reflexivity|]);
      cbn [head]; rewrite !joined_app, joined_attrs; unfold start_tag; rewrite !app_length; cbn [joined flat_map snd]; rewrite !app_length; change (length (bs ">")) with 1; cbn [length]; lia|];
    destruct P' as (A & B & P1 & P2); destruct (GO StartTagClose (bs ">") A B ltac:(discriminate) P1 P2) as (ks & k & X1 & X2 & X3 & X4 & X5);
    exists ks, k; split; [auto|]; split; [auto|]; split; [auto|]; split; [auto|]; split; [auto|intros n a p Q; discriminate Q]).
  destruct (GO StartTagSelfClose (bs "/>") ([(StartTagOpen, bs "<"); (StartTag, name')] ++ flat_map lex_attr attrs ++ [(Whitespace, pad)]) []) as (ks & k & X1 & X2 & X3 & X4 & X5);
    [discriminate|cbn [lex]; unfold lex_start; rewrite <- !app_assoc; reflexivity|
     cbn [head]; rewrite !joined_app, joined_attrs; unfold start_tag; rewrite !app_length; cbn [joined flat_map snd]; rewrite !app_length; change (length (bs "/>")) with 2; cbn [length]; lia|].
  exists ks, k. split; [auto|]. split; [auto|]. split; [auto|]. split; [auto|]. split; [intros Q; exfalso; eapply Q; reflexivity|auto].
Qed.
(** Typing '>' or '/': the end tag that is wanted. *)
Theorem C81_tag : forall providers lang p s, do_tag_complete U d cs providers lang roots p = Ok (Some s) <->
  exists name, (behind_start_tag l providers lang (offset_at d p) name /\ s = bs "$0</" ++ name ++ bs ">") \/
               (behind_slash l (offset_at d p) name /\ s = name ++ bs ">").
Proof.
  intros providers lang p s. set (x := offset_at d p). pose proof (doc_parsed U cs void d l HG HT) as HP.
  destruct (doc_pieces U cs void d l HG HT) as (ks & T & FI & PC).
  assert (TL : tiles 0 ks (length t)) by (eapply doc_tiles; eauto).
  rewrite (C40_tag_complete U d cs void roots ks providers lang p s HD HP T (FI _)). fold x.
  assert (ST : forall name, start_tag_just_closed ks roots providers lang x name <-> behind_start_tag l providers lang x name).
  { intros name. split.
    - intros (n & I & N1 & NV & (k & K & TY & L & S) & S2 & S3). destruct (from_hole l 0 n I) as (c & h & El & N). cbn [Nat.add] in N.
      assert (EL : is_element h) by (destruct h; try discriminate; exact Logic.I).
      assert (HG' := HG). rewrite El in HG'. destruct (element_facts U cs void h (good_hole U cs void c h HG') EL) as (lead & more & pad & stop & kk & F).
      destruct (f_node _ _ _ _ _ _ _ F (hole c)) as (n' & N' & M1 & M2 & M3 & M4 & _). rewrite N in N'. apply (f_equal (@hd_error node)), Some_inj in N'. subst n'.
      destruct (start_stop c h El EL) as (ks' & k' & T' & K' & E' & L' & X1 & X2). rewrite T in T'. apply Ok_inj in T'. subst ks'.
      assert (X : x = hole c + length (head h)) by congruence. assert (KE : tk_end k = tk_end k') by (rewrite E', <- X; congruence).
      assert (k = k') by (eapply tiles_end_inj; eauto). subst k'.
      exists c, h. split; [auto|]. split; [auto|]. split; [intros a b q Q; specialize (X2 a b q Q); congruence|]. split; [congruence|]. split; [auto|]. split; [congruence|auto].
    - intros (c & h & El & EL & NS & <- & X & TA & NV).
      assert (HG' := HG). rewrite El in HG'. destruct (element_facts U cs void h (good_hole U cs void c h HG') EL) as (lead & more & pad & stop & kk & F).
      destruct (f_node _ _ _ _ _ _ _ F (hole c)) as (n & N & M1 & M2 & M3 & M4 & _). destruct (hole_node c h n 0 N) as [I _]. rewrite <- El in I.
      destruct (start_stop c h El EL) as (ks' & k & T' & K & E' & L & X1 & _). rewrite T in T'. apply Ok_inj in T'. subst ks'.
      exists n. split; [auto|]. split; [auto|]. split; [auto|]. split; [exists k; split; [auto|]; split; [auto|]; split; [auto|congruence]|]. split; congruence. }
  assert (EN : forall name, end_tag_just_opened ks roots x name <-> behind_slash l x name).
  { intros name. split.
    - intros (k & y & K & TY & KE & IO & NY). destruct (PC k K) as (c & h & A & w & El & W & KO & KW & O). rewrite TY in O.
      destruct (end_open_owner h (hole c) A w O W) as [TA Ew]. rewrite <- KO in TA. subst w. change (length (bs "</")) with 2 in KW.
      exists c, h, (tk_off k). destruct (open_outer U cs void d l HG HD HT c h El (tk_off k) TA) as [OO ON].
      destruct (outer c) as [[y' o']|] eqn:OC; [|exfalso; eapply ON; eauto].
      destruct (OO y' o' eq_refl) as (m & IM & NM). assert (m = y) by (eapply C40_unique; eauto). subst m. rewrite NY in NM. apply Some_inj in NM. subst y'.
      exists o'. split; [auto|]. split; [auto|]. split; [lia|auto].
    - intros (c & h & e & o & El & TA & X & OC). destruct (open_outer U cs void d l HG HD HT c h El e TA) as [OO _]. destruct (OO name o OC) as (m & IM & NM).
      assert (HG' := HG). rewrite El in HG'. assert (HT' := HT). rewrite El in HT'.
      destruct (end_pieces U cs void d c h HG' HD HT' e TA) as (A & pad & r & EA & LA & _).
      destruct (token_here U cs void d c h HG' HT' EndTagOpen e (e + 2)) as (ks' & k & T' & K & TY & TO & TE).
      { rewrite <- LA. apply place_in. exists A, (bs "</"), [(EndTag, close_name h); (Whitespace, pad); (EndTagClose, bs ">")]. split; [rewrite EA; reflexivity|]. split; [discriminate|auto]. }
      rewrite T in T'. apply Ok_inj in T'. subst ks'. exists k, m. split; [auto|]. split; [auto|]. split; [congruence|]. split; [congruence|auto]. }
  assert (NX : forall name, behind_slash l x name -> opt_beqN (nth_error t x) (Some GT) = false).
  { intros name (c & h & e & o & El & TA & X & OC). assert (HG' := HG). rewrite El in HG'. assert (HT' := HT). rewrite El in HT'.
    destruct (end_pieces U cs void d c h HG' HD HT' e TA) as (A & pad & r & EA & LA & GN & _ & AT & _). unfold end_tag in AT. rewrite <- !app_assoc in AT.
    apply at_adv in AT; [|auto|apply ascii_utf8; reflexivity]. change (length (bs "</")) with 2 in AT. rewrite <- X in AT.
    pose proof (at_nth _ _ _ 0 AT) as Q. rewrite Nat.add_0_r in Q. rewrite Q. destruct (name_first_byte U _ GN) as (b & r' & EB & NB). rewrite EB. cbn [nth_error app]. unfold opt_beqN, GT. lia. }
  split; intros (name & [[A ->]|[A ->]]); exists name.
  - left. rewrite <- ST. auto.
  - right. apply EN in A. split; [auto|]. rewrite (NX name A). reflexivity.
  - left. rewrite ST. auto.
  - right. split; [apply EN; auto|]. rewrite (NX name A). reflexivity.
Qed.

(** Typing '=' in a well-formed document: no quotes are wanted anywhere. *)
Theorem C81_quote : forall settings p v, do_quote_complete U d cs settings roots p <> Ok (Some v).
Proof.
  intros settings p v H. pose proof (doc_parsed U cs void d l HG HT) as HP. destruct (doc_pieces U cs void d l HG HT) as (ks & T & FI & PC).
  rewrite (C41_quote_complete U d cs void roots ks settings p v HD HP T (FI _)) in H. destruct H as (_ & k & K & TY & KE & EQ1 & NV).
  destruct (PC k K) as (c & h & A & w & El & W & KO & KW & O). rewrite TY in O. destruct (attr_owner h A w O) as (EL & l1 & a & l2 & EA & -> & LA).
  assert (HG' := HG). rewrite El in HG'. assert (HT' := HT). rewrite El in HT'.
  destruct (attr_at U cs void d c h HG' HD HT' l1 a l2 EL EA) as (b & r & B & G1 & G2 & G3 & BP & AT). pose proof G2 as (S1 & S2 & N1 & N2 & GV).
  apply at_adv in AT; [|auto|apply blank_utf8; auto]. apply at_adv in AT; [|auto|eapply made_of_utf8; eauto].
  replace (hole c + 1 + length (h_name h) + length (render_attrs l1) + length (ha_space a) + length (ha_name a)) with (tk_end k) in AT by lia.
  pose proof (at_nth _ _ _ 0 AT) as Q0. rewrite Nat.add_0_r, EQ1 in Q0. pose proof (at_nth _ _ _ 1 AT) as Q1. rewrite KE in Q1.
  assert (WS : forall g b' s, blank g -> nth_error (g ++ b' :: s) 0 = Some EQ -> b' <> EQ -> False).
  { intros g b' s BG Q NE. destruct g as [|y g]; cbn [app nth_error] in Q; apply Some_inj in Q; [congruence|]. subst y. specialize (BG EQ ltac:(left; auto)). cbn in BG. unfold EQ in BG. intuition discriminate. }
  destruct (ha_value a) as [|gap u|gap q u] eqn:HV; cbn [render_value] in *.
  - cbn [app] in Q0. symmetry in Q0. destruct l2 as [|a2 l2]; [cbn [render_attrs flat_map app] in Q0; eapply WS; [exact BP|exact Q0|unfold EQ; lia]|].
    inversion G3 as [|? ? (B1 & B2 & _) _]; subst. unfold render_attrs in Q0. cbn [flat_map] in Q0. unfold render_attr in Q0. rewrite <- !app_assoc in Q0.
    destruct (ha_space a2) as [|y g]; [congruence|]. cbn [app nth_error] in Q0. apply Some_inj in Q0. subst y. specialize (B1 EQ ltac:(left; auto)). cbn in B1. unfold EQ in B1. intuition discriminate.
  - destruct GV as (BG & NE & MO). destruct gap as [|y g]; [|cbn [app nth_error] in Q0; apply Some_inj in Q0; subst y; specialize (BG EQ ltac:(left; auto)); cbn in BG; unfold EQ in BG; intuition discriminate].
    cbn [app] in Q1. destruct (made_first _ u MO NE) as (b0 & r0 & -> & BF). cbn [nth_error app] in Q1. change (nth_error t (offset_at d p) = Some b0) in Q1.
    destruct NV as [NV|(b1 & NV & X)]; [apply nth_error_None in NV; congruence|]. rewrite Q1 in NV. apply Some_inj in NV. subst b1.
    assert (L : (b0 < 128)%N) by (unfold is_ws, GT in X; lia). destruct (BF L) as [B1 B2]. cbn in B2. unfold is_uspace in B1. unfold is_ws, GT in X. lia.
  - destruct GV as (BG & Hq & _). destruct gap as [|y g]; [|cbn [app nth_error] in Q0; apply Some_inj in Q0; subst y; specialize (BG EQ ltac:(left; auto)); cbn in BG; unfold EQ in BG; intuition discriminate].
    cbn [app] in Q1. change (nth_error t (offset_at d p) = Some q) in Q1.
    destruct NV as [NV|(b1 & NV & X)]; [apply nth_error_None in NV; congruence|]. rewrite Q1 in NV. apply Some_inj in NV. subst b1. unfold is_ws, GT in *. destruct Hq; subst q; lia.
Qed.
End Answers.

(** ** Typing '=' *)
(** A cursor is behind the name of an attribute and its '='; the document is well-formed but for the
    quotes of the empty value. *)
Section Typed.
Variables (U : unicode) (cs : bool) (void : list str) (d : textdoc) (c : ctx) (h : html) (l1 : list hattr) (a : hattr) (l2 : list hattr) (q : N).
Hypothesis HG : good_doc U cs void (fill c h).
Hypothesis HD : textdoc_ok d.
Hypothesis EL : is_element h.
Hypothesis EA : h_attrs h = l1 ++ a :: l2.
Hypothesis EV : ha_value a = Quoted [] q [].
Notation t := (d_text d).
Let s := hole c + 1 + length (h_name h) + length (render_attrs l1) + length (ha_space a) + length (ha_name a) + 1.
Hypothesis HT : t = firstn s (render_all (fill c h)) ++ skipn (s + 2) (render_all (fill c h)).
Let HU : Utf8 t := do_utf8 _ HD.

Lemma around_value : exists pre b r, render_all (fill c h) = pre ++ [q; q] ++ b :: r /\ length pre = s /\ stops b /\ t = pre ++ b :: r /\
  pre = opens (levels c) ++ render_all (front c) ++ bs "<" ++ h_name h ++ render_attrs l1 ++ ha_space a ++ ha_name a ++ bs "=" /\
  good_name U (h_name h) /\ good_attrs l1 /\ good_attr a /\ ~ In (ha_name a) (map ha_name l1).
Proof.
  pose proof (good_hole _ _ _ _ _ HG) as GH. destruct (element_facts U cs void h GH EL) as (lead & more & pad & stop & ks & F).
  destruct (f_stop _ _ _ _ _ _ _ F) as (b0 & r0 & ES & B0). destruct (f_render _ _ _ _ _ _ _ F) as (rest & R). pose proof (f_head _ _ _ _ _ _ _ F) as FH.
  pose proof (f_pad _ _ _ _ _ _ _ F) as BP. destruct (f_attrs _ _ _ _ _ _ _ F) as [GA ND]. rewrite EA in GA, ND, FH. rewrite map_app in ND. cbn [map] in ND.
  apply Forall_app in GA as [GA1 GA2]. apply Forall_cons_iff in GA2 as [GAa GA3].
  assert (N2 := NoDup_remove_2 _ _ _ ND). assert (N1 := NoDup_remove_1 _ _ _ ND).
  assert (X : exists b r, render_attrs l2 ++ pad ++ stop ++ rest ++ back c = b :: r /\ stops b).
  { destruct l2 as [|a2 l2']; [cbn [render_attrs flat_map app]; destruct pad as [|y g]; cbn [app]|].
    - rewrite ES. cbn [app]. eexists _, _. split; [reflexivity|]. unfold stops. tauto.
    - eexists _, _. split; [reflexivity|]. left. rewrite blank_ws in BP. apply BP. left. auto.
    - apply Forall_cons_iff in GA3 as [(Q1 & Q2 & _) _]. unfold render_attrs. cbn [flat_map]. unfold render_attr at 1. destruct (ha_space a2) as [|y g]; [congruence|]. cbn [app].
      eexists _, _. split; [reflexivity|]. left. rewrite blank_ws in Q1. apply Q1. left. auto. }
  destruct X as (b & r & X & SB).
  exists (opens (levels c) ++ render_all (front c) ++ bs "<" ++ h_name h ++ render_attrs l1 ++ ha_space a ++ ha_name a ++ bs "="), b, r.
  set (pre := opens (levels c) ++ render_all (front c) ++ bs "<" ++ h_name h ++ render_attrs l1 ++ ha_space a ++ ha_name a ++ bs "=").
  assert (LP : length pre = s).
  { unfold pre, s. rewrite hole_front, !app_length. change (length (bs "<")) with 1. change (length (bs "=")) with 1. lia. }
  assert (E : render_all (fill c h) = pre ++ [q; q] ++ b :: r).
  { rewrite fill_text, R, FH. unfold pre, start_tag, render_attrs. rewrite flat_map_app. cbn [flat_map]. unfold render_attr at 2. rewrite EV. cbn [render_value]. rewrite <- X. unfold render_attrs.
    rewrite <- !app_assoc. cbn [app]. reflexivity. }
  split; [exact E|]. split; [exact LP|]. split; [exact SB|]. split.
  { rewrite HT, E, <- LP. rewrite firstn_app, firstn_all, Nat.sub_diag, firstn_O, app_nil_r. f_equal.
    rewrite skipn_app, skipn_all2 by lia. replace (length pre + 2 - length pre) with 2 by lia. reflexivity. }
  split; [reflexivity|]. split; [apply (f_name _ _ _ _ _ _ _ F)|]. split; [|split; [exact GAa|intros Q; apply N2; apply in_or_app; auto]].
  split; [auto|]. clear - N1. induction (map ha_name l1) as [|y g IH]; [constructor|]. cbn [app] in N1. inversion N1 as [|? ? A1 A2]; subst. constructor; [intros Q; apply A1, in_or_app; auto|auto].
Qed.
Lemma typed_token ks : doc_tokens U t cs = Ok ks -> exists k, In k ks /\ tk_type k = AttributeName /\ tk_end k + 1 = s /\ nth_error t (tk_end k) = Some EQ.
Proof.
  intros T. destruct around_value as (pre & b & r & E & LP & SB & Et & EP & GN & GA & (B1 & B2 & B3 & B4 & B5) & NI).
  destruct (fill_levels _ _ _ _ _ HG) as [GL GF].
  assert (TX : t = opens (levels c) ++ render_all (front c) ++ bs "<" ++ h_name h ++ render_attrs l1 ++ ha_space a ++ ha_name a ++ EQ :: b :: r).
  { rewrite Et, EP. rewrite <- !app_assoc. reflexivity. }
  pose proof (at_start t HU) as A. rewrite TX in A at 2.
  assert (S1 : exists sc0 p0, run U t cs void (scanner_new 0 WithinContent) (mkP (node_new 0 (length t)) [] None None None) sc0 p0 /\
    st sc0 = WithinContent /\ pos sc0 = length (opens (levels c)) /\ at_ t (pos sc0) (render_all (front c) ++ bs "<" ++ h_name h ++ render_attrs l1 ++ ha_space a ++ ha_name a ++ EQ :: b :: r)).
  { destruct (levels c) as [|v0 vs0] eqn:EL'.
    - eexists _, _. split; [apply run_nil|]. split; [reflexivity|]. split; [reflexivity|]. exact A.
    - destruct (@exists_last _ (v0 :: vs0)) as (vs & v & EV'); [discriminate|]. rewrite EV' in *.
      destruct (opens_run U t cs void HU vs v (scanner_new 0 WithinContent) (mkP (node_new 0 (length t)) [] None None None) _ GL eq_refl A)
        as (s0 & q0 & s1 & q1 & R0 & R1 & S1 & _ & P1 & _). cbn [scanner_new pos Nat.add] in P1.
      exists s1, q1. split; [eapply run_trans; eauto|]. split; [auto|]. split; [auto|]. rewrite P1. apply (at_adv _ HU 0) in A; [exact A|].
      clear - GL HU. induction GL; [apply u_nil|]. unfold opens. cbn [flat_map]. apply u_app; auto. eapply level_utf8; eauto. }
  destruct S1 as (sc0 & p0 & R0 & S0 & P0 & A0).
  destruct (all_run U t cs void HU (front c) sc0 p0 _ GF S0 A0) as (sc & p & R1 & S1 & P1 & _).
  { right. cbn [bs app]. eauto. }
  assert (EP1 : pos sc = hole c) by (rewrite hole_front, app_length; lia).
  apply at_adv in A0; [|auto|eapply doc_utf8; eauto]. rewrite <- P1 in A0.
  destruct (ha_space a) as [|e w] eqn:HS; [tauto|]. assert (We : is_ws e = true) by (rewrite blank_ws in B1; apply B1; cbn; auto).
  destruct (tag_opens U t cs void HU sc p (h_name h) l1 e (w ++ ha_name a ++ EQ :: b :: r)) as (sc1 & p1 & R2 & I1 & A1 & P2 & C1); auto.
  { left. auto. }
  destruct (attr_first _ B4 B3) as (c0 & q1 & E1 & E2 & _).
  destruct (PropAccept.space_token U t cs void HU sc1 p1 (e :: w) (ha_name a ++ EQ :: b :: r) I1 A1 B1 B2) as (sc2 & R3 & A2 & I2 & H2 & P3 & T2 & O2).
  { intros b0 q0 E0. rewrite E1 in E0. cbn [app] in E0. injection E0 as <- _. auto. }
  destruct (PropAccept.name_token U t cs void HU sc2 p1 (ha_name a) EQ (b :: r) I2 H2 A2 B4 B3) as (sc3 & p3 & R4 & A3 & S3 & P4 & T3 & O3 & _); [right; reflexivity| |].
  { rewrite C1. cbn [n_attrs]. destruct (attr_get (ha_name a) (attrs_from (pos sc + 1 + length (h_name h)) l1)) eqn:Q; auto. exfalso. apply NI.
    apply attr_get_name in Q. rewrite names_from in Q. exact Q. }
  exists (token_of sc3). cbn [token_of tk_type tk_off tk_end].
  split; [eapply (last_token U t cs void ks HU T); [eapply run_trans; [exact R0|]; eapply run_trans; [exact R1|]; eapply run_trans; [exact R2|]; eapply run_trans; [exact R3|exact R4]|]; lia|].
  split; [auto|]. split; [unfold s; rewrite P4, P3, P2, EP1, ?HS; cbn [length]; lia|]. pose proof (at_nth _ _ _ 0 A3) as Q. rewrite Nat.add_0_r in Q. exact Q.
Qed.
End Typed.

(** Typing the '=' of an attribute in a document that is well-formed but for the quotes of its
    value, and taking what is proposed, gives the well-formed document. *)
Theorem C81_restores : forall U d cs void roots settings c h l1 a l2 q p,
  let whole := fill c h in
  let s := hole c + 1 + length (h_name h) + length (render_attrs l1) + length (ha_space a) + length (ha_name a) + 1 in
  textdoc_ok d -> good_doc U cs void whole -> is_element h -> h_attrs h = l1 ++ a :: l2 -> ha_value a = Quoted [] q [] ->
  d_text d = firstn s (render_all whole) ++ skipn (s + 2) (render_all whole) ->
  parse U (d_text d) cs void = Ok roots -> offset_at d p = s -> nth_error (d_text d) s <> Some 47%N ->
  configured settings = Some ([q] ++ bs "$1" ++ [q]) ->
  do_quote_complete U d cs settings roots p = Ok (Some ([q] ++ bs "$1" ++ [q])) /\
  insert (d_text d) s ([q] ++ [q]) = render_all whole /\
  parse U (insert (d_text d) s ([q] ++ [q])) cs void = Ok (nodes_all 0 whole).
Proof.
  intros U d cs void roots settings c h l1 a l2 q p whole s HD HG EL EA EV HT HP EO NS CF.
  destruct (parse_tokens _ _ _ _ _ (do_utf8 _ HD) HP) as (ks & T).
  destruct (around_value U cs void d c h l1 a l2 q HG EL EA EV HT) as (pre & b & r & E & LP & SB & Et & _).
  destruct (typed_token U cs void d c h l1 a l2 q HG HD EL EA EV HT ks T) as (k & K & TY & KE & EQ1).
  assert (INS : insert (d_text d) s ([q] ++ [q]) = render_all whole).
  { unfold insert. unfold whole. rewrite E, Et. fold s in LP. rewrite <- LP. rewrite firstn_app, firstn_all, Nat.sub_diag, firstn_O, app_nil_r, skipn_app, skipn_all, Nat.sub_diag. reflexivity. }
  split; [|split; [exact INS|rewrite INS; apply C21_round_trip; auto]].
  apply (C41_offered U d cs void roots ks settings p); auto. exists k. split; [auto|]. split; [auto|]. split; [rewrite EO; exact KE|]. split; [auto|]. right. exists b.
  assert (NB : nth_error (d_text d) s = Some b) by (rewrite Et; fold s in LP; rewrite <- LP, nth_error_app2, Nat.sub_diag by lia; reflexivity).
  rewrite EO. split; [exact NB|]. unfold stops in SB. destruct SB as [SB|[SB|SB]]; auto. congruence.
Qed.

(** ** Documents *)
(** "<ul><input type =..." of PropCompleteTree.v: behind the '>' of a start tag and behind the '</' of
    an end tag. *)
Example C81_places : let l := fill in_ctx in_h in let pv := [html_provider demo_unicode (bs "html5") builtin_data false] in
  behind_start_tag l pv (bs "html") 43 (bs "p") /\ behind_slash l 50 (bs "ul").
Proof.
  split.
  - exists par_ctx, par_h. split; [reflexivity|]. split; [exact I|]. split; [discriminate|]. split; [reflexivity|]. split; [reflexivity|]. split; [discriminate|].
    apply not_void. vm_compute. intuition discriminate.
  - exists par_ctx, par_h, 48, 0. repeat split.
Qed.
Example C81_results : let run := tc_run (render_all (fill in_ctx in_h)) in
  run 43 = Ok (Some (bs "$0</p>")) /\ run 50 = Ok (Some (bs "ul>")) /\ run 4 = Ok (Some (bs "$0</ul>")) /\
  run 32 = Ok None /\ run 39 = Ok None /\ run 55 = Ok None /\ run 53 = Ok None.
Proof. vm_compute. repeat split. Qed.
Definition bare_h : html := HVoid (bs "input") [mkHAttr (bs " ") (bs "type") (Quoted [] 34%N []); mkHAttr (bs " ") (bs "data-k") NoValue] [].
Definition bare_ctx : ctx := Inside [] (bs "ul") [] [] (Here [] []) (bs "ul") [] [].
Lemma bare_good : good_doc demo_unicode false html5_void (fill bare_ctx bare_h).
Proof.
  split; [|cbn; auto]. apply Forall_cons; [|apply Forall_nil]. apply G_element; try name; try blanks.
  - intros [H|H]; discriminate.
  - intros H. cbn in H. intuition discriminate.
  - attrs_tac.
  - apply Forall_cons; [|apply Forall_nil]. apply G_void; try name; try blanks.
    + intros [H|H]; discriminate.
    + cbn. tauto.
    + attrs_tac; attr_tac; cbn [ha_value]; try exact I. split; [blanks|]. split; [auto|]. split; [apply ascii_utf8; reflexivity|cbn; intuition discriminate].
  - cbn. auto.
  - reflexivity.
Qed.
Example C81_hypotheses : let w := render_all (fill bare_ctx bare_h) in let t := bs "<ul><input type= data-k></ul>" in
  w = bs "<ul><input type="""" data-k></ul>" /\ t = firstn 16 w ++ skipn (16 + 2) w /\ textdoc_ok (utf16_doc t) /\
  hole bare_ctx + 1 + length (h_name bare_h) + length (render_attrs []) + length (bs " ") + length (bs "type") + 1 = 16 /\
  nth_error t 16 = Some 32%N /\ configured None = Some ([34%N] ++ bs "$1" ++ [34%N]) /\ qc_run None t 16 = Ok (Some (bs """$1""")).
Proof. split; [reflexivity|]. split; [reflexivity|]. split; [apply C27_contract, ascii_utf8; reflexivity|]. vm_compute. repeat split. Qed.
(** Directly in front of "/>" no quotes are proposed, although they are missing there too; nor with
    white space in front of the '='. *)
Theorem C81_restores_refuted :
  qc_run None (bs "<br a=/>") 6 = Ok None /\ qc_run None (bs "<p a =></p>") 6 = Ok None /\ qc_run None (bs "<p a=></p>") 5 = Ok (Some (bs """$1""")).
Proof. vm_compute. repeat split. Qed.
Print Assumptions C81_tag.
Print Assumptions C81_quote.
Print Assumptions C81_restores.
Print Assumptions C81_restores_refuted.
