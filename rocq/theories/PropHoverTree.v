(** * C79: hovering over well-formed documents *)
From Verif Require Import Base BaseFacts Stream Scanner ScannerFacts ScanStep ScanProps ScanPanic
  ScanShape Tree Parser ParseSpec ParseInv ParseOrder PropParse TreeFacts PropTree TextDoc PropDoc PropTags NodeScan TokenLoop
  DataManager Entities Hover PropHover Render RenderFacts PropRender PropRename Lexing PropTokens PropScan PropTyped PropTagDoc.
From Coq Require Import ZifyBool ZifyNat ZifyN Sorted.

(** ** Specification *)
(** The start tag of an element, as written, and its attributes. *)
Definition head (h : html) : str :=
  match h with
  | HElement name attrs pad _ _ _ | HRaw name attrs pad _ _ | HVoid name attrs pad => start_tag name attrs pad (bs ">")
  | HSelf name attrs pad => start_tag name attrs pad (bs "/>")
  | HText _ | HComment _ | HDoctype _ _ => []
  end.
Definition h_attrs (h : html) : list hattr :=
  match h with
  | HElement _ attrs _ _ _ _ | HRaw _ attrs _ _ _ | HVoid _ attrs _ | HSelf _ attrs _ => attrs
  | HText _ | HComment _ | HDoctype _ _ => []
  end.
Definition is_element (h : html) : Prop := match h with HText _ | HComment _ | HDoctype _ _ => False | _ => True end.
(** Where the end tag of an element written from [o] begins. *)
Definition tail_at (h : html) (o : nat) : option nat :=
  match h with
  | HElement _ _ _ body _ _ => Some (o + length (head h) + length (render_all body))
  | HRaw _ _ _ s _ => Some (o + length (head h) + length s)
  | _ => None
  end.
(** Where the name and the value (with its quotes) of an attribute are written, for the attribute
    that follows the attributes [l1] in the start tag of [h]. *)
Definition name_span (h : html) (o : nat) (l1 : list hattr) (a : hattr) : nat * nat :=
  let s := o + 1 + length (h_name h) + length (render_attrs l1) + length (ha_space a) in
  (s, s + length (ha_name a)).
Definition value_span (h : html) (o : nat) (l1 : list hattr) (a : hattr) : option (nat * nat) :=
  let e := snd (name_span h o l1 a) in
  match ha_value a with
  | NoValue => None
  | Bare gap v => Some (e + length gap + 1, e + length gap + 1 + length v)
  | Quoted gap _ v => Some (e + length gap + 1, e + length gap + 1 + length v + 2)
  end.
(** The value without quotes. *)
Definition plain_value (a : hattr) : str := match ha_value a with NoValue => [] | Bare _ v | Quoted _ _ v => v end.
(** The offset [x] is in the element, written from [o], but not in an element inside it. *)
Definition in_own (h : html) (o x : nat) : Prop :=
  is_element h /\ o <= x < o + length (render h) /\
  match h with
  | HElement _ _ _ body _ _ => forall b k a, body = b ++ k :: a -> is_element k ->
      let i := o + length (head h) + length (render_all b) in ~ i <= x < i + length (render k)
  | _ => True
  end.

(** ** The pieces of a document *)
Lemma place_in k a b l : forall o, In (k, a, b) (place o (filter written l)) <->
  exists p w q, l = p ++ (k, w) :: q /\ w <> [] /\ a = o + length (joined p) /\ b = a + length w.
Proof.
  induction l as [|[k' w'] l IH]; intros o; cbn [filter].
  - split; [intros []|]. intros (p & w & q & E & _). destruct p; discriminate.
  - assert (ST : (exists p w q, (k', w') :: l = p ++ (k, w) :: q /\ w <> [] /\ a = o + length (joined p) /\ b = a + length w) <->
      (k' = k /\ w' <> [] /\ a = o /\ b = a + length w') \/
      (exists p w q, l = p ++ (k, w) :: q /\ w <> [] /\ a = o + length w' + length (joined p) /\ b = a + length w)).
    { split.
      - intros (p & w & q & E & W & A & B). destruct p as [|p0 p]; cbn [app] in E.
        + injection E as -> -> ->. left. cbn in A. split; auto. split; auto. split; [lia|auto].
        + injection E as <- ->. right. exists p, w, q. split; auto. split; auto. cbn [joined flat_map snd] in A. rewrite app_length in A. unfold joined. split; [lia|auto].
      - intros [(-> & W & A & B)|(p & w & q & -> & W & A & B)].
        + exists [], w', l. cbn. split; auto. split; auto. split; [lia|auto].
        + exists ((k', w') :: p), w, q. split; auto. split; auto. cbn [joined flat_map snd]. rewrite app_length. unfold joined in A. split; [lia|auto]. }
    rewrite ST. unfold written at 1. cbn [snd]. destruct w' as [|z w'].
    + specialize (IH (o + 0)). rewrite Nat.add_0_r in IH at 1. rewrite IH. cbn [length]. split; intros R; [right; exact R|]. destruct R as [R|R]; [|exact R]. exfalso. apply (proj1 (proj2 R)). reflexivity.
    + cbn [place In]. rewrite IH. split.
      * intros [E|H]; [injection E as -> <- <-; left; split; [auto|]; split; [discriminate|]; auto|right; auto].
      * intros [(-> & _ & -> & ->)|H]; [left; auto|right; auto].
Qed.
Lemma lex_fill c : exists p q, length (joined p) = hole c /\ forall h, flat_map lex (fill c h) = p ++ lex h ++ q.
Proof.
  assert (JA : forall l, joined (flat_map lex l) = render_all l).
  { intros l. rewrite <- joined_written. apply joined_all. }
  induction c as [b a|b name attrs pad c (p & q & L & H) close pad2 a].
  - exists (flat_map lex b), (flat_map lex a). split; [rewrite JA; auto|]. intros h. cbn [fill]. rewrite flat_map_app. reflexivity.
  - exists (flat_map lex b ++ lex_start name attrs pad (StartTagClose, bs ">") ++ p), (q ++ lex_end close pad2 ++ flat_map lex a).
    split.
    + rewrite !joined_app, JA, joined_start, !app_length. cbn [hole]. lia.
    + intros h. cbn [fill]. rewrite flat_map_app. cbn [flat_map lex]. rewrite H, <- !app_assoc. reflexivity.
Qed.
(** The attributes' pieces. *)
Definition attr_name_at (o : nat) (l1 : list hattr) (a : hattr) : nat := o + length (render_attrs l1) + length (ha_space a).
Lemma attrs_pieces k i j l : Forall good_attr l -> forall o, In (k, i, j) (place o (filter written (flat_map lex_attr l))) ->
  k <> StartTag /\
  (k = AttributeName -> exists l1 a l2, l = l1 ++ a :: l2 /\ i = attr_name_at o l1 a /\ j = i + length (ha_name a)) /\
  (k = AttributeValue -> exists l1 a l2 w z, l = l1 ++ a :: l2 /\ lex_value (ha_value a) = [(Whitespace, w); (DelimiterAssign, bs "="); (AttributeValue, z)] /\
     i = attr_name_at o l1 a + length (ha_name a) + length w + 1 /\ j = i + length z).
Proof.
  induction 1 as [|a l GA _ IH]; intros o H; [destruct H|].
  cbn [flat_map] in H. rewrite filter_app, place_app, joined_written in H. apply in_app_iff in H as [H|H].
  - apply place_in in H as (p & w & q & E & W & I & J). subst i j. unfold lex_attr in E.
    destruct p as [|p0 p]; cbn [app] in E; [injection E as <- _; repeat split; discriminate|injection E as <- E].
    destruct p as [|p1 p]; cbn [app] in E.
    { injection E as <- <- E. repeat split; try discriminate. intros _. exists [], a, l. unfold attr_name_at. cbn [render_attrs flat_map joined snd length app].
      rewrite app_nil_r. repeat split; lia. }
    injection E as <- E.
    assert (V : exists w z, lex_value (ha_value a) = [(Whitespace, w); (DelimiterAssign, bs "="); (AttributeValue, z)]).
    { destruct (ha_value a); [destruct p; discriminate| |]; eexists _, _; reflexivity. }
    destruct V as (w1 & z & V). rewrite V in E.
    destruct p as [|p2 p]; cbn [app] in E; [injection E as <- _; repeat split; discriminate|injection E as <- E].
    destruct p as [|p3 p]; cbn [app] in E; [injection E as <- _; repeat split; discriminate|injection E as <- E].
    destruct p as [|p4 p]; cbn [app] in E; [|injection E as _ E; destruct p; discriminate].
    injection E as <- <- E. split; [discriminate|]. split; [discriminate|]. intros _. exists [], a, l, w1, z.
    split; auto. split; auto. unfold attr_name_at. cbn [render_attrs flat_map joined snd length app]. rewrite !app_length. change (length (bs "=")) with 1. cbn [length]. lia.
  - apply IH in H as (H1 & H2 & H3). assert (L : length (joined (lex_attr a)) = length (render_attr a)).
    { pose proof (joined_attrs [a]) as Q. cbn [flat_map render_attrs] in Q. rewrite !app_nil_r in Q. rewrite Q. reflexivity. }
    rewrite L in H2, H3. split; auto. split; intros K.
    + destruct (H2 K) as (l1 & b & l2 & -> & I & J). exists (a :: l1), b, l2. split; auto. split; auto.
      unfold attr_name_at in *. cbn [render_attrs flat_map]. rewrite app_length. unfold render_attrs in I. lia.
    + destruct (H3 K) as (l1 & b & l2 & w & z & -> & V & I & J). exists (a :: l1), b, l2, w, z. split; auto. split; auto. split; auto.
      unfold attr_name_at in *. cbn [render_attrs flat_map]. rewrite app_length. unfold render_attrs in I. lia.
Qed.

(** The pieces of a start tag written from [o]. *)
Definition stop_kind (k : token_type) : Prop := k = StartTagClose \/ k = StartTagSelfClose.
Lemma start_pieces name attrs pad ks stop k i j o : Forall good_attr attrs -> stop_kind ks ->
  In (k, i, j) (place o (filter written (lex_start name attrs pad (ks, stop)))) ->
  let oa := o + 1 + length name in
  (k = StartTag -> i = o + 1 /\ j = oa) /\
  (k = AttributeName -> exists l1 a l2, attrs = l1 ++ a :: l2 /\ i = attr_name_at oa l1 a /\ j = i + length (ha_name a)) /\
  (k = AttributeValue -> exists l1 a l2 w z, attrs = l1 ++ a :: l2 /\ lex_value (ha_value a) = [(Whitespace, w); (DelimiterAssign, bs "="); (AttributeValue, z)] /\
     i = attr_name_at oa l1 a + length (ha_name a) + length w + 1 /\ j = i + length z).
Proof.
  intros GA SK H oa. unfold lex_start in H. rewrite !filter_app, !place_app, !joined_written in H.
  apply in_app_iff in H as [H|H]; [|apply in_app_iff in H as [H|H]].
  - apply place_in in H as (p & w & q & E & W & I & J). destruct p as [|p0 p]; cbn [app] in E; [injection E as <- _; repeat split; discriminate|injection E as <- E].
    destruct p as [|p1 p]; cbn [app] in E; [|injection E as _ E; destruct p; discriminate].
    injection E as <- <- E. split; [|split; discriminate]. intros _. cbn [joined flat_map snd] in I. rewrite app_nil_r in I. change (length (bs "<")) with 1 in I. cbn [length] in I. subst oa. lia.
  - apply attrs_pieces in H as (H1 & H2 & H3); auto.
    replace (o + length (joined [(StartTagOpen, bs "<"); (StartTag, name)])) with oa in H2, H3.
    2:{ cbn [joined flat_map snd]. rewrite !app_length. change (length (bs "<")) with 1. cbn [length]. subst oa. lia. }
    split; [congruence|]. auto.
  - apply place_in in H as (p & w & q & E & W & I & J). destruct p as [|p0 p]; cbn [app] in E; [injection E as <- _; repeat split; discriminate|injection E as <- E].
    destruct p as [|p1 p]; cbn [app] in E; [|injection E as _ E; destruct p; discriminate].
    injection E as <- <- E. destruct SK as [-> | ->]; repeat split; discriminate.
Qed.
Lemma start_name_piece name attrs pad stop o : name <> [] -> In (StartTag, o + 1, o + 1 + length name) (place o (filter written (lex_start name attrs pad stop))).
Proof.
  intros N. apply place_in. exists [(StartTagOpen, bs "<")], name, (flat_map lex_attr attrs ++ [(Whitespace, pad); stop]). auto.
Qed.
Lemma attr_pieces name l1 a l2 pad stop o : good_attr a -> let oa := o + 1 + length name in
  let P := place o (filter written (lex_start name (l1 ++ a :: l2) pad stop)) in
  In (AttributeName, attr_name_at oa l1 a, attr_name_at oa l1 a + length (ha_name a)) P /\
  forall w z, lex_value (ha_value a) = [(Whitespace, w); (DelimiterAssign, bs "="); (AttributeValue, z)] -> z <> [] ->
    let i := attr_name_at oa l1 a + length (ha_name a) + length w + 1 in In (AttributeValue, i, i + length z) P.
Proof.
  intros (A1 & A2 & A3 & A4 & A5) oa P. unfold P, lex_start.
  assert (JL : length (joined (flat_map lex_attr l1)) = length (render_attrs l1)) by (rewrite joined_attrs; auto).
  split.
  - apply place_in. exists ([(StartTagOpen, bs "<"); (StartTag, name)] ++ flat_map lex_attr l1 ++ [(Whitespace, ha_space a)]), (ha_name a),
      (lex_value (ha_value a) ++ flat_map lex_attr l2 ++ [(Whitespace, pad); stop]).
    split; [|split; [exact A3|]].
    + rewrite flat_map_app. cbn [flat_map]. unfold lex_attr at 2. rewrite <- !app_assoc. reflexivity.
    + split; auto. unfold attr_name_at, oa. rewrite !joined_app, !app_length, JL. cbn [joined flat_map snd]. rewrite !app_length. change (length (bs "<")) with 1. cbn [length]. lia.
  - intros w z V Z. apply place_in. exists ([(StartTagOpen, bs "<"); (StartTag, name)] ++ flat_map lex_attr l1 ++ [(Whitespace, ha_space a); (AttributeName, ha_name a); (Whitespace, w); (DelimiterAssign, bs "=")]), z,
      (flat_map lex_attr l2 ++ [(Whitespace, pad); stop]).
    split; [|split; [exact Z|]].
    + rewrite flat_map_app. cbn [flat_map]. unfold lex_attr at 2. rewrite V, <- !app_assoc. reflexivity.
    + split; auto. unfold attr_name_at, oa. rewrite !joined_app, !app_length, JL. cbn [joined flat_map snd]. rewrite !app_length. change (length (bs "<")) with 1. change (length (bs "=")) with 1. cbn [length]. lia.
Qed.
Lemma value_piece h o l1 a s : value_span h o l1 a = Some s -> exists w z,
  lex_value (ha_value a) = [(Whitespace, w); (DelimiterAssign, bs "="); (AttributeValue, z)] /\
  s = (snd (name_span h o l1 a) + length w + 1, snd (name_span h o l1 a) + length w + 1 + length z) /\
  (good_attr a -> z <> [] /\ unquoted z (plain_value a)).
Proof.
  unfold value_span, plain_value. intros H. destruct (ha_value a) as [|gap v|gap q v] eqn:V; [discriminate| |]; apply Some_inj in H; subst s.
  - exists gap, v. split; [reflexivity|]. split; [reflexivity|]. intros (_ & _ & _ & _ & G). rewrite V in G. destruct G as (_ & NE & M). split; auto.
    assert (NQ : forall b, In b v -> ~ a_quote b).
    { intros b I Q. destruct M as (k & -> & K). apply encode_byte in I.
      - destruct (K b I) as (_ & _ & NC). apply NC. destruct Q as [-> | ->]; cbn; auto.
      - apply forallb_forall. intros z Z. apply K. auto.
      - destruct Q; subst; lia. }
    exists [], []. rewrite app_nil_r. split; auto. split; left; split; auto; intros b r E; apply NQ; rewrite E; [cbn; auto|apply in_or_app; cbn; auto].
  - exists gap, ([q] ++ v ++ [q]). split; [reflexivity|]. split; [rewrite !app_length; cbn [length]; f_equal; lia|].
    intros (_ & _ & _ & _ & G). rewrite V in G. destruct G as (_ & Q & _). split; [discriminate|].
    exists [q], [q]. split; auto. split; right; exists q; auto.
Qed.

(** ** The elements *)
Lemma render_length_attrs l1 a l2 : length (render_attrs (l1 ++ a :: l2)) =
  length (render_attrs l1) + length (ha_space a) + length (ha_name a) + length (render_value (ha_value a)) + length (render_attrs l2).
Proof. unfold render_attrs. rewrite flat_map_app. cbn [flat_map]. unfold render_attr at 2. rewrite !app_length. lia. Qed.
Record facts (U : unicode) (h : html) (lead more : list piece) (pad stop : str) (ks : token_type) : Prop := {
  f_lex : lex h = lead ++ more;
  f_lead : lead = lex_start (h_name h) (h_attrs h) pad (ks, stop);
  f_kind : stop_kind ks;
  f_stop : exists b r, stop = b :: r /\ (b = 62%N \/ b = 47%N);
  f_head : head h = start_tag (h_name h) (h_attrs h) pad stop;
  f_render : exists rest, render h = head h ++ rest;
  f_name : good_name U (h_name h);
  f_attrs : good_attrs (h_attrs h);
  f_pad : blank pad;
  f_node : forall o, exists n, nodes_from o h = [n] /\ n_start n = o /\ n_tag n = Some (h_name h) /\
    n_ste n = Some (o + length (head h)) /\ n_ets n = tail_at h o /\ n_end n = o + length (render h) /\
    (n_children n = match h with HElement _ _ _ body _ _ => nodes_all (o + length (head h)) body | _ => [] end)
}.
Lemma element_facts U cs void h : good U cs void h -> is_element h -> exists lead more pad stop ks, facts U h lead more pad stop ks.
Proof.
  intros G E.
  assert (S1 : exists b r, bs ">" = b :: r /\ (b = 62%N \/ b = 47%N)) by (exists 62%N, []; auto).
  assert (S2 : exists b r, bs "/>" = b :: r /\ (b = 62%N \/ b = 47%N)) by (exists 47%N, [62%N]; auto).
  destruct h as [x|x|w x|name attrs pad body close pad2|name attrs pad x pad2|name attrs pad|name attrs pad]; try destruct E.
  - exists (lex_start name attrs pad (StartTagClose, bs ">")), (flat_map lex body ++ lex_end close pad2), pad, (bs ">"), StartTagClose.
    constructor; cbn [h_name h_attrs lex]; try reflexivity.
    all: try (rewrite app_nil_r; reflexivity).
    all: try (eexists; cbn [render head]; reflexivity).
    all: try (left; reflexivity).
    all: try (right; reflexivity).
    all: try exact S1. all: try exact S2.
    all: try (exists []; cbn [render head]; rewrite app_nil_r; reflexivity).
    all: try (inversion G; subst; auto using script_name, style_name; fail).
    intros o. eexists. split; [reflexivity|]. cbn [n_start n_tag n_ste n_ets n_end n_children head tail_at render]. cbv zeta.
    split; [reflexivity|]. split; [reflexivity|]. split; [reflexivity|]. split; [reflexivity|].
    rewrite ?app_length. unfold render_all. split; [lia|reflexivity].
  - exists (lex_start name attrs pad (StartTagClose, bs ">")), ([((if beq name (bs "script") then Script else Styles), x)] ++ lex_end name pad2), pad, (bs ">"), StartTagClose.
    constructor; cbn [h_name h_attrs lex]; try reflexivity.
    all: try (rewrite app_nil_r; reflexivity).
    all: try (eexists; cbn [render head]; reflexivity).
    all: try (left; reflexivity).
    all: try (right; reflexivity).
    all: try exact S1. all: try exact S2.
    all: try (exists []; cbn [render head]; rewrite app_nil_r; reflexivity).
    all: try (inversion G; subst; auto using script_name, style_name; fail).
    intros o. eexists. split; [reflexivity|]. cbn [n_start n_tag n_ste n_ets n_end n_children head tail_at render]. cbv zeta.
    split; [reflexivity|]. split; [reflexivity|]. split; [reflexivity|]. split; [reflexivity|].
    rewrite ?app_length. unfold render_all. split; [lia|reflexivity].
  - exists (lex_start name attrs pad (StartTagClose, bs ">")), [], pad, (bs ">"), StartTagClose.
    constructor; cbn [h_name h_attrs lex]; try reflexivity.
    all: try (rewrite app_nil_r; reflexivity).
    all: try (eexists; cbn [render head]; reflexivity).
    all: try (left; reflexivity).
    all: try (right; reflexivity).
    all: try exact S1. all: try exact S2.
    all: try (exists []; cbn [render head]; rewrite app_nil_r; reflexivity).
    all: try (inversion G; subst; auto using script_name, style_name; fail).
    intros o. eexists. split; [reflexivity|]. cbn [n_start n_tag n_ste n_ets n_end n_children head tail_at render]. cbv zeta.
    split; [reflexivity|]. split; [reflexivity|]. split; [reflexivity|]. split; [reflexivity|].
    rewrite ?app_length. unfold render_all. split; [lia|reflexivity].
  - exists (lex_start name attrs pad (StartTagSelfClose, bs "/>")), [], pad, (bs "/>"), StartTagSelfClose.
    constructor; cbn [h_name h_attrs lex]; try reflexivity.
    all: try (rewrite app_nil_r; reflexivity).
    all: try (eexists; cbn [render head]; reflexivity).
    all: try (left; reflexivity).
    all: try (right; reflexivity).
    all: try exact S1. all: try exact S2.
    all: try (exists []; cbn [render head]; rewrite app_nil_r; reflexivity).
    all: try (inversion G; subst; auto using script_name, style_name; fail).
    intros o. eexists. split; [reflexivity|]. cbn [n_start n_tag n_ste n_ets n_end n_children head tail_at render]. cbv zeta.
    split; [reflexivity|]. split; [reflexivity|]. split; [reflexivity|]. split; [reflexivity|].
    rewrite ?app_length. unfold render_all. split; [lia|reflexivity].
Qed.

Lemma tail_after U cs void h o e : good U cs void h -> tail_at h o = Some e -> o + length (head h) <= e < o + length (render h).
Proof.
  intros G H. destruct h; try discriminate; cbn [tail_at] in H; apply Some_inj in H; cbn [head render] in *;
    rewrite ?app_length; unfold end_tag; rewrite ?app_length; change (length (bs "</")) with 2; unfold render_all in *; lia.
Qed.
Lemma in_tags U cs void h o x : good U cs void h -> is_element h -> o <= x < o + length (render h) ->
  x < o + length (head h) \/ (exists e, tail_at h o = Some e /\ e <= x) -> in_own h o x.
Proof.
  intros G E L H. split; auto. split; auto. destruct h as [| | |name attrs pad body close pad2| | |]; auto.
  intros b k a EB EK i I. subst i. destruct H as [H|(e & H & H')]; [lia|].
  cbn [tail_at head] in *. apply Some_inj in H. rewrite EB in H. rewrite render_app, render_cons, !app_length in H. lia.
Qed.

Section Doc.
Variables (U : unicode) (cs : bool) (void : list str) (d : textdoc).
Hypothesis HD : textdoc_ok d.
Let t := d_text d.
Let HU : Utf8 t := do_utf8 _ HD.
Variable l : list html.
Hypothesis HG : good_doc U cs void l.
Hypothesis HT : t = render_all l.
Notation roots := (nodes_all 0 l).

Lemma tokens_placed : exists ks, doc_tokens U t cs = Ok ks /\ map seen ks = place 0 (filter written (flat_map lex l)).
Proof.
  destruct (C73_tokens U cs void true l HG) as (ks & z & T & _ & P & _). exists ks. split; auto.
  unfold doc_tokens. rewrite HT, T. reflexivity.
Qed.
Lemma nodes_within c h m : l = fill c h -> forall o, nodes_from o h = [m] -> n_start m = o /\ n_end m = o + length (render h).
Proof.
  intros E o N. assert (G : good U cs void h) by (apply good_hole with (c := c); rewrite <- E; auto).
  assert (EL : is_element h) by (destruct h; try discriminate; exact I).
  destruct (element_facts U cs void h G EL) as (lead & more & pad & stop & ks & F).
  destruct (f_node _ _ _ _ _ _ _ F o) as (n & N' & A & _ & _ & _ & B & _). rewrite N in N'.
  apply (f_equal (@hd_error node)), Some_inj in N'. subst n. auto.
Qed.
(** The innermost elements. *)
Lemma own_innermost c h x : l = fill c h -> in_own h (hole c) x -> exists n, nodes_from (hole c) h = [n] /\ innermost roots x n.
Proof.
  intros E (EL & L & O). assert (G : good U cs void h) by (apply good_hole with (c := c); rewrite <- E; auto).
  destruct (element_facts U cs void h G EL) as (lead & more & pad & stop & ks & F).
  destruct (f_node _ _ _ _ _ _ _ F (hole c)) as (n & N & N1 & N2 & N3 & N4 & N5 & N6). exists n. split; auto.
  destruct (hole_node c h n 0 N) as [I1 I2]. rewrite <- E in I1, I2. cbn [Nat.add] in I2.
  split; [auto|]. split; [lia|]. intros m M X. destruct (I2 m x M X) as [K|[-> |K]]; [lia|lia|lia|].
  exfalso. rewrite N6 in K. destruct h as [| | |name attrs pad' body close pad2| | |]; try (destruct K; fail).
  apply from_hole in K as (c' & h' & EB & NM).
  assert (EK : is_element h') by (destruct h'; try discriminate; exact I).
  assert (GH : good U cs void h').
  { inversion G; subst. apply good_hole with (c := c'). split; auto. }
  destruct (element_facts U cs void h' GH EK) as (lead' & more' & padx & stop' & ks' & F').
  destruct (f_node _ _ _ _ _ _ _ F' (hole c + length (head (HElement name attrs pad' body close pad2)) + hole c')) as (m' & NM' & M1 & _ & _ & _ & M5 & _).
  rewrite NM in NM'. apply (f_equal (@hd_error node)), Some_inj in NM'. subst m'.
  destruct c' as [b a|b nm at' pd c' cl pd2 a]; cbn [fill hole] in *.
  - eapply (O b h' a); eauto. lia.
  - eapply (O b (HElement nm at' pd (fill c' h') cl pd2) a); [exact EB|exact I|].
    destruct (around c') as (pre & post & P1 & P2). cbn [render]. change (flat_map render (fill c' h')) with (render_all (fill c' h')).
    rewrite P2, !app_length. lia.
Qed.
Lemma innermost_own x n : innermost roots x n -> exists c h, l = fill c h /\ nodes_from (hole c) h = [n] /\ in_own h (hole c) x.
Proof.
  intros (I1 & I2 & I3). destruct (from_hole l 0 n I1) as (c & h & E & N). cbn [Nat.add] in N. exists c, h. split; auto. split; auto.
  assert (EL : is_element h) by (destruct h; try discriminate; exact I).
  destruct (nodes_within c h n E _ N) as [A B]. split; auto. split; [lia|].
  destruct h as [| | |name attrs pad body close pad2| | |]; auto. intros b k a EB EK i L.
  assert (G : good U cs void (HElement name attrs pad body close pad2)) by (apply good_hole with (c := c); rewrite <- E; auto).
  assert (GK : good U cs void k). { inversion G as [| | |? ? ? ? ? ? _ _ _ _ _ FB| | | |]; subst. apply Forall_app in FB as [_ FB]. inversion FB; auto. }
  destruct (element_facts U cs void k GK EK) as (lead & more & pad' & stop & ks & F).
  destruct (f_node _ _ _ _ _ _ _ F i) as (m & NM & M1 & _ & _ & _ & M5 & _).
  destruct (hole_node c _ n 0 N) as [_ _].
  assert (IM : In m (doc_nodes roots)).
  { apply in_flat_map in I1 as (r & R1 & R2). apply in_flat_map. exists r. split; auto.
    assert (TR : forall r, In n (preorder r) -> In m (n_children n) -> In m (preorder r)).
    { clear. intros r H1 H2. revert r H1. apply (node_induction (fun r => In n (preorder r) -> In m (preorder r))).
      intros r IH H1. rewrite preorder_eq in *. right. destruct H1 as [->|H1].
      - apply in_flat_map. exists m. split; auto. rewrite preorder_eq. left. auto.
      - apply in_flat_map in H1 as (z & Z1 & Z2). apply in_flat_map. exists z. split; auto. rewrite Forall_forall in IH. apply IH; auto. }
    apply TR; auto. cbn [nodes_from] in N. apply (f_equal (@hd_error node)), Some_inj in N. subst n. cbn [n_children].
    change (nodes_with nodes_from ?u body) with (nodes_all u body). rewrite EB, nodes_app. unfold nodes_all at 2. cbn [nodes_with].
    apply in_or_app. right. apply in_or_app. left. subst i. cbn [head] in NM. rewrite NM. cbn; auto. }
  destruct (I3 m IM) as [Q _]; [lia|]. subst i. cbn [head] in M1. unfold start_tag in M1. rewrite !app_length in M1. change (length (bs "<")) with 1 in M1. lia.
Qed.
(** The tokens of a start tag. *)
Lemma start_tokens c h lead more pad stop ks n : l = fill c h -> facts U h lead more pad stop ks -> nodes_from (hole c) h = [n] ->
  n_ste n = Some (hole c + length (head h)) /\
  (forall k, start_tag_token U d cs n (hole c + length (head h)) k -> In (seen k) (place (hole c) (filter written lead))) /\
  (forall x, In x (place (hole c) (filter written lead)) -> exists k, start_tag_token U d cs n (hole c + length (head h)) k /\ seen k = x).
Proof.
  intros E F N. destruct (f_node _ _ _ _ _ _ _ F (hole c)) as (n' & N' & N1 & _ & N3 & _). rewrite N in N'.
  apply (f_equal (@hd_error node)), Some_inj in N'. subst n'. split; auto.
  destruct tokens_placed as (ks' & T & P). destruct (lex_fill c) as (p & q & LP & LF). rewrite E, LF, (f_lex _ _ _ _ _ _ _ F) in P.
  assert (JL : length (joined lead) = length (head h)).
  { rewrite (f_head _ _ _ _ _ _ _ F), (f_lead _ _ _ _ _ _ _ F). rewrite joined_start. reflexivity. }
  rewrite <- !app_assoc, !filter_app, !place_app, !joined_written, Nat.add_0_l, LP, JL in P.
  assert (BD : forall ty i j o x, In (ty, i, j) (place o (filter written x)) -> o <= i < j /\ j <= o + length (joined x)).
  { intros ty i j o x H. apply place_in in H as (p' & w & q' & -> & W & -> & ->). rewrite joined_app. cbn [joined flat_map snd]. rewrite !app_length.
    unfold joined. destruct w; [congruence|]. cbn [length]. lia. }
  split.
  - intros k (ks2 & T2 & IK & B1 & B2 & B3). fold t in T2. rewrite T in T2. apply Ok_inj in T2. subst ks2.
    assert (IS : In (seen k) (map seen ks')) by (apply in_map; auto). rewrite P in IS.
    apply in_app_iff in IS as [IS|IS]; [|apply in_app_iff in IS as [IS|IS]; auto].
    + apply BD in IS. lia.
    + rewrite <- place_app, <- filter_app in IS || idtac.
      exfalso. apply in_app_iff in IS as [IS|IS]; apply BD in IS; lia.
  - intros [[ty i] j] IX. assert (IS : In (ty, i, j) (map seen ks')).
    { rewrite P. apply in_or_app. right. apply in_or_app. left. auto. }
    apply in_map_iff in IS as (k & K1 & K2). exists k. split; auto. exists ks'. split; auto. split; auto.
    apply BD in IX. rewrite JL in IX. unfold seen in K1. injection K1 as _ -> ->. lia.
Qed.
Lemma all_complete n o : complete_tags U d cs roots n o.
Proof.
  split.
  - intros m M _. destruct (from_hole l 0 m M) as (c & h & E & N). cbn [Nat.add] in N.
    assert (G : good U cs void h) by (apply good_hole with (c := c); rewrite <- E; auto).
    assert (EL : is_element h) by (destruct h; try discriminate; exact I).
    destruct (element_facts U cs void h G EL) as (lead & more & pad & stop & ks & F).
    destruct (f_node _ _ _ _ _ _ _ F (hole c)) as (n' & N' & _ & _ & N3 & _). rewrite N in N'.
    apply (f_equal (@hd_error node)), Some_inj in N'. subst n'. congruence.
  - intros ks k T K _. destruct tokens_placed as (ks' & T' & P). fold t in T. rewrite T in T'. apply Ok_inj in T'. subst ks'.
    assert (IS : In (seen k) (map seen ks)) by (apply in_map; auto). rewrite P in IS. unfold seen in IS.
    apply place_in in IS as (p & w & q & _ & W & A & B). destruct w; [congruence|]. cbn [length] in B. lia.
Qed.
End Doc.

(** Two attributes of a tag: the same, or one in front of the other. *)
Lemma two_attrs l1 a l2 l1' a' l2' o : Forall good_attr (l1 ++ a :: l2) -> l1 ++ a :: l2 = l1' ++ a' :: l2' ->
  (l1 = l1' /\ a = a') \/
  attr_name_at o l1 a + length (ha_name a) + length (render_value (ha_value a)) < attr_name_at o l1' a' \/
  attr_name_at o l1' a' + length (ha_name a') + length (render_value (ha_value a')) < attr_name_at o l1 a.
Proof.
  intros GA E. assert (SP : forall b, In b (l1 ++ a :: l2) -> 0 < length (ha_space b)).
  { intros b I. rewrite Forall_forall in GA. destruct (GA b I) as (_ & N & _). destruct (ha_space b); [congruence|cbn; lia]. }
  pose proof (SP a ltac:(apply in_or_app; cbn; auto)) as S1.
  pose proof (SP a' ltac:(rewrite E; apply in_or_app; cbn; auto)) as S2. unfold attr_name_at.
  destruct (app_split_after _ _ _ _ _ _ E) as [(m & M)|[(M1 & M2 & _)|(m & M)]]; [right; left|left; auto|right; right].
  - rewrite M, render_length_attrs. lia.
  - rewrite M, render_length_attrs. lia.
Qed.
Lemma value_length a w z : lex_value (ha_value a) = [(Whitespace, w); (DelimiterAssign, bs "="); (AttributeValue, z)] ->
  length (render_value (ha_value a)) = length w + 1 + length z.
Proof.
  destruct (ha_value a); cbn [lex_value render_value]; [discriminate| |]; intros V; apply (f_equal joined) in V; unfold joined in V; cbn [flat_map snd] in V;
    rewrite ?app_nil_r in V; apply (f_equal (@length N)) in V; rewrite ?app_length in V; change (length (bs "=")) with 1 in V; rewrite ?app_length; change (length (bs "=")) with 1; lia.
Qed.

(** ** C79 *)
Section Hover.
Variables (U : unicode) (cs : bool) (void : list str) (c : ctx) (h : html).
Notation t := (render_all (fill c h)).
Notation d := (utf16_doc t).
Hypothesis HG : good_doc U cs void (fill c h).
Variables (md : bool) (parts : list hover_participant) (providers : list provider) (lang : str).
Variables (ents : list (str * list N)) (opts : hover_settings).
(** The answer at offset [x] of the document. *)
Definition hovers (x : nat) (r : option hover) : Prop :=
  exists roots, parse U t cs void = Ok roots /\
    do_hover U d cs md parts providers lang ents opts (position_at d x) roots = Ok r.
Notation tag_hover := (get_tag_hover U cs md providers lang opts).
Notation attr_hover := (get_attr_hover md providers lang opts).
Notation value_hover := (get_attr_value_hover md parts providers lang opts).
Notation span s := (range_at d (fst s) (snd s)).

Let HU : Utf8 t := good_utf8 _ _ _ _ HG.
Let HD : textdoc_ok d := C27_contract t HU.
Let GH : good U cs void h := good_hole U cs void c h HG.
Let HP : parse U t cs void = Ok (nodes_all 0 (fill c h)) := C21_round_trip U cs void (fill c h) HG.
Lemma offset_here x : Bd t x -> offset_at d (position_at d x) = x.
Proof. intros B. apply (do_inv _ HD); [apply Bd_le; auto|apply Bd_boundary; auto]. Qed.
Lemma column_here x : Bd t x -> column_ok t x (position_at d x).
Proof. intros B. apply utf16_column; auto; [apply Bd_le; auto|apply Bd_boundary; auto]. Qed.

(** What the tokens of the start tag are, for the cursor. *)
Lemma tag_on x lead more pad stop ks n : facts U h lead more pad stop ks -> nodes_from (hole c) h = [n] ->
  let s := hole c + length (head h) in
  let on ty := exists k, start_tag_token U d cs n s k /\ touch ty x k in
  (on StartTag <-> on_span (hole c + 1, hole c + 1 + length (h_name h)) x) /\
  (on AttributeName <-> exists l1 a l2, h_attrs h = l1 ++ a :: l2 /\ on_span (name_span h (hole c) l1 a) x) /\
  (on AttributeValue <-> exists l1 a l2 sp, h_attrs h = l1 ++ a :: l2 /\ value_span h (hole c) l1 a = Some sp /\ on_span sp x).
Proof.
  intros F N s on. destruct (start_tokens U cs void d (fill c h) HG eq_refl c h lead more pad stop ks n eq_refl F N) as (_ & TI & TO).
  pose proof (f_attrs _ _ _ _ _ _ _ F) as [GA _]. pose proof (f_name _ _ _ _ _ _ _ F) as GN.
  pose proof (f_lead _ _ _ _ _ _ _ F) as LD. subst lead. unfold on_span. cbn [fst snd].
  assert (AT : forall l1 a, name_span h (hole c) l1 a = (attr_name_at (hole c + 1 + length (h_name h)) l1 a, attr_name_at (hole c + 1 + length (h_name h)) l1 a + length (ha_name a))) by reflexivity.
  split; [|split]; split.
  - intros (k & K & T1 & T2). apply TI in K. unfold seen in K. rewrite T1 in K.
    apply start_pieces in K as (K & _); [|auto|apply (f_kind _ _ _ _ _ _ _ F)]. destruct (K eq_refl) as [-> ->] in T2. lia.
  - intros L. destruct (TO _ (start_name_piece (h_name h) (h_attrs h) pad (ks, stop) (hole c) (proj2 (good_name_utf8 _ _ GN)))) as (k & K & S).
    unfold seen in S. injection S as S1 S2 S3. exists k. split; auto. split; auto. lia.
  - intros (k & K & T1 & T2). apply TI in K. unfold seen in K. rewrite T1 in K.
    apply start_pieces in K as (_ & K & _); [|auto|apply (f_kind _ _ _ _ _ _ _ F)]. destruct (K eq_refl) as (l1 & a & l2 & E & I & J).
    exists l1, a, l2. split; auto. rewrite AT. cbn [fst snd]. lia.
  - intros (l1 & a & l2 & E & L). rewrite AT in L. cbn [fst snd] in L. rewrite E in TO.
    assert (Ga : good_attr a) by (rewrite E in GA; apply Forall_app in GA as [_ GA]; inversion GA; auto).
    destruct (attr_pieces (h_name h) l1 a l2 pad (ks, stop) (hole c) Ga) as [P _]. destruct (TO _ P) as (k & K & S).
    unfold seen in S. injection S as S1 S2 S3. exists k. split; auto. split; auto. lia.
  - intros (k & K & T1 & T2). apply TI in K. unfold seen in K. rewrite T1 in K.
    apply start_pieces in K as (_ & _ & K); [|auto|apply (f_kind _ _ _ _ _ _ _ F)]. destruct (K eq_refl) as (l1 & a & l2 & w & z & E & V & I & J).
    destruct (value_span h (hole c) l1 a) as [sp|] eqn:VS.
    2:{ unfold value_span in VS. destruct (ha_value a); discriminate. }
    exists l1, a, l2, sp. split; auto. split; auto. destruct (value_piece _ _ _ _ _ VS) as (w' & z' & V' & -> & _).
    rewrite V in V'. injection V' as <- <-. rewrite AT. cbn [fst snd]. lia.
  - intros (l1 & a & l2 & sp & E & VS & L). destruct (value_piece _ _ _ _ _ VS) as (w & z & V & -> & Z). rewrite AT in L. cbn [fst snd] in L. rewrite E in TO.
    assert (Ga : good_attr a) by (rewrite E in GA; apply Forall_app in GA as [_ GA]; inversion GA; auto).
    destruct (attr_pieces (h_name h) l1 a l2 pad (ks, stop) (hole c) Ga) as [_ P]. specialize (P w z V (proj1 (Z Ga))). destruct (TO _ P) as (k & K & S).
    unfold seen in S. injection S as S1 S2 S3. exists k. split; auto. split; auto. lia.
Qed.
(** The attributes are apart from the name of the tag and from each other. *)
Lemma apart l1 a l2 x : Forall good_attr (h_attrs h) -> h_attrs h = l1 ++ a :: l2 ->
  on_span (name_span h (hole c) l1 a) x \/ (exists s, value_span h (hole c) l1 a = Some s /\ on_span s x) ->
  ~ on_span (hole c + 1, hole c + 1 + length (h_name h)) x.
Proof.
  intros GA E H. unfold on_span. cbn [fst snd].
  assert (Ga : good_attr a) by (rewrite E in GA; apply Forall_app in GA as [_ GA]; inversion GA; auto).
  destruct Ga as (_ & SP & _). assert (0 < length (ha_space a)) by (destruct (ha_space a); [congruence|cbn; lia]).
  destruct H as [H|(s & V & H)]; [unfold on_span, name_span in H; cbn [fst snd] in H; lia|].
  destruct (value_piece _ _ _ _ _ V) as (w & z & _ & -> & _). unfold on_span, name_span in H. cbn [fst snd] in H. lia.
Qed.
Lemma in_head l1 a l2 x lead more pad stop ks : facts U h lead more pad stop ks -> h_attrs h = l1 ++ a :: l2 ->
  on_span (name_span h (hole c) l1 a) x \/ (exists s, value_span h (hole c) l1 a = Some s /\ on_span s x) ->
  hole c <= x < hole c + length (head h) /\ in_own h (hole c) x.
Proof.
  intros F E H. assert (L : hole c <= x < hole c + length (head h)).
  { rewrite (f_head _ _ _ _ _ _ _ F), E. unfold start_tag. rewrite !app_length, render_length_attrs. change (length (bs "<")) with 1.
    destruct (f_stop _ _ _ _ _ _ _ F) as (b & r & -> & _). cbn [length].
    destruct H as [H|(s & V & H)]; [unfold on_span, name_span in H; cbn [fst snd] in H; lia|].
    destruct (value_piece _ _ _ _ _ V) as (w & z & VL & -> & _). rewrite (value_length _ _ _ VL). unfold on_span, name_span in H. cbn [fst snd] in H. lia. }
  split; auto. assert (EL : is_element h) by (destruct h; cbn [h_attrs] in E; try (destruct l1; discriminate); exact I).
  eapply in_tags; eauto; [|lia]. destruct (f_render _ _ _ _ _ _ _ F) as (r & ->). rewrite app_length. lia.
Qed.
Lemma has_facts : is_element h -> exists lead more pad stop ks n, facts U h lead more pad stop ks /\ nodes_from (hole c) h = [n] /\
  n_tag n = Some (h_name h) /\ n_ste n = Some (hole c + length (head h)) /\ n_ets n = tail_at h (hole c).
Proof.
  intros EL. destruct (element_facts U cs void h GH EL) as (lead & more & pad & stop & ks & F).
  destruct (f_node _ _ _ _ _ _ _ F (hole c)) as (n & N & N1 & N2 & N3 & N4 & _). exists lead, more, pad, stop, ks, n. auto.
Qed.
Lemma innermost_here x n : in_own h (hole c) x -> nodes_from (hole c) h = [n] -> innermost (nodes_all 0 (fill c h)) x n.
Proof.
  intros O N. destruct (own_innermost U cs void d (fill c h) HG eq_refl c h x eq_refl O) as (n' & N' & I). rewrite N in N'.
  apply (f_equal (@hd_error node)), Some_inj in N'. subst n'. auto.
Qed.
(** The texts of the attributes. *)
Lemma attr_text l1 a l2 lead more pad stop ks : facts U h lead more pad stop ks -> h_attrs h = l1 ++ a :: l2 ->
  let n := name_span h (hole c) l1 a in sub t (fst n) (snd n) = ha_name a /\
  forall w z, lex_value (ha_value a) = [(Whitespace, w); (DelimiterAssign, bs "="); (AttributeValue, z)] ->
    sub t (snd n + length w + 1) (snd n + length w + 1 + length z) = z.
Proof.
  intros F E n. destruct (around c) as (pre & post & LP & R). destruct (f_render _ _ _ _ _ _ _ F) as (rest & RR).
  rewrite R, RR, (f_head _ _ _ _ _ _ _ F), E. unfold start_tag, render_attrs. rewrite flat_map_app. cbn [flat_map]. change (render_attr a) with (ha_space a ++ ha_name a ++ render_value (ha_value a)).
  unfold n, name_span. cbn [fst snd]. rewrite <- LP. split.
  - match goal with |- sub ?T _ _ = _ => replace T with ((pre ++ bs "<" ++ h_name h ++ flat_map render_attr l1 ++ ha_space a) ++ ha_name a ++
      (render_value (ha_value a) ++ flat_map render_attr l2 ++ pad ++ stop ++ rest ++ post)) by (rewrite <- !app_assoc; reflexivity) end.
    match goal with |- sub (?A ++ ?X ++ ?C) ?i ?j = _ => transitivity (sub (A ++ X ++ C) (length A) (length A + length X)); [|apply sub_mid] end.
    f_equal; rewrite !app_length; change (length (bs "<")) with 1; unfold render_attrs; lia.
  - intros w z V. assert (VT : render_value (ha_value a) = w ++ bs "=" ++ z).
    { pose proof (joined_attrs [a]) as J. unfold lex_attr, render_attr in J. cbn [flat_map render_attrs] in J. unfold render_attr in J. rewrite V, !app_nil_r in J.
      cbn [joined flat_map snd app] in J. rewrite app_nil_r in J. rewrite <- ?app_assoc in J. apply app_inv_head in J. apply app_inv_head in J. symmetry. exact J. }
    rewrite VT.
    match goal with |- sub ?T _ _ = _ => replace T with ((pre ++ bs "<" ++ h_name h ++ flat_map render_attr l1 ++ ha_space a ++ ha_name a ++ w ++ bs "=") ++ z ++
      (flat_map render_attr l2 ++ pad ++ stop ++ rest ++ post)) by (rewrite <- !app_assoc; reflexivity) end.
    match goal with |- sub (?A ++ ?X ++ ?C) ?i ?j = _ => transitivity (sub (A ++ X ++ C) (length A) (length A + length X)); [|apply sub_mid] end.
    f_equal; rewrite !app_length; change (length (bs "<")) with 1; change (length (bs "=")) with 1; unfold render_attrs; lia.
Qed.

(** The end tag. *)
Lemma end_here e : tail_at h (hole c) = Some e -> exists close pad r, good_name U close /\ blank pad /\ at_ t e (end_tag close pad ++ r) /\
  names_at h (hole c) = [(hole c + 1, hole c + 1 + length (h_name h)); (e + 2, e + 2 + length close)] /\
  hole c + length (render h) = e + length (end_tag close pad).
Proof.
  intros TE. assert (EL : is_element h) by (destruct h; try discriminate; exact I).
  destruct (has_facts EL) as (lead & more & pad & stop & ks & n & F & N & _).
  destruct (at_hole U cs void d HD (fill c h) HG eq_refl c h eq_refl (ex_intro _ n N)) as (post & A). cbn [d_text] in A.
  pose proof GH as G. destruct h as [| | |name attrs pad' body close pad2|name attrs pad' z pad2| |]; try discriminate; cbn [tail_at head] in TE; apply Some_inj in TE; cbn [render] in A; rewrite <- !app_assoc in A.
  - inversion G as [| | |? ? ? ? ? ? G1 _ _ G2 G3 G4 _ G5 SC G6| | | |]; subst. exists close, pad2, post. split; auto. split; auto.
    apply at_adv in A; auto; [|apply (start_utf8 U); auto; apply ascii_utf8; reflexivity]. apply at_adv in A; auto.
    2:{ clear - G4. induction G4; [apply u_nil|]. cbn [flat_map]. apply u_app; auto. eapply render_utf8; eauto. }
    split; [exact A|]. split; [reflexivity|]. cbn [render]. rewrite !app_length. unfold render_all. lia.
  - assert (GG : good_name U name /\ good_attrs attrs /\ blank pad' /\ Utf8 z /\ blank pad2).
    { inversion G; subst; auto 10 using script_name, style_name. }
    destruct GG as (G1 & G2 & G3 & G4 & G5). exists name, pad2, post. split; auto. split; auto.
    apply at_adv in A; auto; [|apply (start_utf8 U); auto; apply ascii_utf8; reflexivity]. apply at_adv in A; auto.
    subst e. split; [exact A|]. split; [reflexivity|]. cbn [render]. rewrite !app_length. lia.
Qed.
Lemma end_hover x e close pad r : Bd t x -> tail_at h (hole c) = Some e -> good_name U close -> blank pad -> at_ t e (end_tag close pad ++ r) ->
  e <= x < hole c + length (render h) ->
  hovers x (if (e + 2 <=? x) && (x <=? e + 2 + length close) then tag_hover (h_name h) (range_at d (e + 2) (e + 2 + length close)) else None).
Proof.
  intros B TE GC GP A L. assert (EL : is_element h) by (destruct h; try discriminate; exact I).
  destruct (has_facts EL) as (lead & more & pad' & stop & ks & n & F & N & N2 & N3 & N4). exists (nodes_all 0 (fill c h)). split; auto.
  assert (O : in_own h (hole c) x).
  { eapply in_tags; eauto; [|right; exists e; split; [auto|lia]]. destruct (tail_after U cs void h _ _ GH TE). lia. }
  assert (OX := offset_here x B). pose proof (innermost_here x n O N) as IM. rewrite <- OX in IM. rewrite TE in N4.
  destruct (C45_end_tag U d cs void _ HD HP md parts providers lang ents opts (position_at d x) n _ _ IM N2 N4) as (b' & e' & EN & LB & H1 & H2); [rewrite OX; lia|].
  destruct EN as (_ & W & NT). cbn [d_text] in *.
  unfold end_tag in A. rewrite <- !app_assoc in A. apply at_adv in A; [|auto|apply ascii_utf8; reflexivity]. change (length (bs "</")) with 2 in A.
  assert (EB : b' = e + 2).
  { destruct (Nat.eq_dec b' (e + 2)) as [|NE]; auto. exfalso. destruct W as (_ & _ & W). destruct (W (e + 2)) as (b & Q1 & Q2); [lia|lia|].
    destruct (name_first_byte _ _ GC) as (b1 & r1 & -> & WS & _). destruct A as [A _].
    assert (Q3 : nth_error (skipn (e + 2) t) 0 = Some b) by (rewrite skipn_nth_error, Nat.add_0_r; exact Q1). rewrite A in Q3. cbn in Q3. congruence. }
  subst b'.
  assert (EE : e' = e + 2 + length close).
  { change (bs ">" ++ r) with (62%N :: r) in A. destruct (start_stop [] pad 62%N r (Forall_nil _) GP (or_introl eq_refl)) as (b & r' & E & S). cbn [render_attrs flat_map app] in E.
    rewrite E in A. eapply name_end; eauto. destruct NT as (c0 & l0 & SC & SE & _). destruct (Nat.le_gt_cases (e + 2) e') as [|K]; auto. exfalso.
    unfold sub in SE. replace (e' - (e + 2)) with 0 in SE by lia. cbn [firstn] in SE. rewrite encode_cons in SE. cbn [forallb] in SC. apply andb_true_iff in SC as [SC _].
    pose proof (encode1_nonempty _ SC) as Q. destruct (encode1 c0); [cbn in Q; lia|discriminate]. }
  subst e'. rewrite OX in H1, H2. destruct ((e + 2 <=? x) && (x <=? e + 2 + length close)) eqn:Q; [apply H1|apply H2]; lia.
Qed.

(** On the name of an element, in either tag. *)
Theorem C79_tag : forall x s, Bd t x -> In s (names_at h (hole c)) -> on_span s x ->
  hovers x (tag_hover (h_name h) (span s)).
Proof.
  intros x s B IS ON. assert (EL : is_element h) by (destruct h; try (destruct IS); exact I).
  destruct (has_facts EL) as (lead & more & pad & stop & ks & n & F & N & N2 & N3 & N4). exists (nodes_all 0 (fill c h)). split; auto.
  assert (OX := offset_here x B).
  destruct (at_hole U cs void d HD (fill c h) HG eq_refl c h eq_refl (ex_intro _ n N)) as (post & A).
  destruct (shape U cs void d HD h (hole c) post GH A) as (n' & N' & _ & _ & _ & _ & SH); [intros Q; rewrite Q in IS; destruct IS|].
  rewrite N in N'. apply (f_equal (@hd_error node)), Some_inj in N'. subst n'. rewrite N4 in SH.
  assert (FST : s = (hole c + 1, hole c + 1 + length (h_name h)) -> do_hover U d cs md parts providers lang ents opts (position_at d x) (nodes_all 0 (fill c h)) = Ok (tag_hover (h_name h) (span s))).
  { intros ->. assert (LX : hole c <= x < hole c + length (head h)).
    { unfold on_span in ON. cbn [fst snd] in ON. rewrite (f_head _ _ _ _ _ _ _ F). unfold start_tag. rewrite !app_length. change (length (bs "<")) with 1.
      destruct (f_stop _ _ _ _ _ _ _ F) as (b & r & -> & _). cbn [length]. lia. }
    assert (O : in_own h (hole c) x). { eapply in_tags; eauto; [|lia]. destruct (f_render _ _ _ _ _ _ _ F) as (r & ->). rewrite app_length. lia. }
    pose proof (innermost_here x n O N) as IM. rewrite <- OX in IM.
    destruct (C45_start_tag U d cs void _ HD HP md parts providers lang ents opts (position_at d x) n _ _ IM N2 N3) as (T1 & _); [rewrite OX; lia|].
    rewrite OX in T1. destruct (tag_on x _ _ _ _ _ _ F N) as (Q & _). destruct Q as [_ Q]. destruct (Q ON) as (k & K & T).
    rewrite (T1 k K T). destruct (start_tokens U cs void d (fill c h) HG eq_refl c h lead more pad stop ks n eq_refl F N) as (_ & TI & _).
    apply TI in K. unfold seen in K. destruct T as [T _]. rewrite T, (f_lead _ _ _ _ _ _ _ F) in K.
    apply start_pieces in K as (K & _); [|apply (f_attrs _ _ _ _ _ _ _ F)|apply (f_kind _ _ _ _ _ _ _ F)]. destruct (K eq_refl) as [-> ->]. reflexivity. }
  destruct (tail_at h (hole c)) as [e|] eqn:TE.
  - destruct SH as (y & P & EN & NS & _ & _). rewrite NS in IS. destruct IS as [IS|[IS|[]]]; [apply FST; auto|]. subst s.
    unfold on_span in ON. cbn [fst snd] in *. destruct (end_here e TE) as (close & pad' & r & GC & GP & AE & NE & LE).
    rewrite NE in NS. injection NS as NS. assert (LY : length close = length y) by lia. rewrite <- LY in *.
    destruct (end_hover x e close pad' r B TE GC GP AE) as (roots & PR & HR).
    { rewrite LE. unfold end_tag. rewrite !app_length. change (length (bs "</")) with 2. change (length (bs ">")) with 1. lia. }
    rewrite HP in PR. apply Ok_inj in PR. subst roots. replace ((e + 2 <=? x) && (x <=? e + 2 + length close)) with true in HR by lia. exact HR.
  - rewrite SH in IS. destruct IS as [IS|[]]. apply FST. auto.
Qed.
(** On the name of an attribute. *)
Theorem C79_attribute : forall x l1 a l2, Bd t x -> h_attrs h = l1 ++ a :: l2 -> on_span (name_span h (hole c) l1 a) x ->
  hovers x (attr_hover (h_name h) (ha_name a) (span (name_span h (hole c) l1 a))).
Proof.
  intros x l1 a l2 B E ON. assert (EL : is_element h) by (destruct h; cbn [h_attrs] in E; try (destruct l1; discriminate); exact I).
  destruct (has_facts EL) as (lead & more & pad & stop & ks & n & F & N & N2 & N3 & N4). exists (nodes_all 0 (fill c h)). split; auto.
  assert (OX := offset_here x B). destruct (in_head l1 a l2 x _ _ _ _ _ F E (or_introl ON)) as [L O].
  pose proof (innermost_here x n O N) as IM. rewrite <- OX in IM.
  destruct (C45_start_tag U d cs void _ HD HP md parts providers lang ents opts (position_at d x) n _ _ IM N2 N3) as (_ & T1 & _); [rewrite OX; lia|].
  rewrite OX in T1. cbn [d_text] in T1. destruct (tag_on x _ _ _ _ _ _ F N) as (Q1 & Q2 & _).
  pose proof (f_attrs _ _ _ _ _ _ _ F) as [GA _].
  assert (N1 : ~ exists k, start_tag_token U d cs n (hole c + length (head h)) k /\ touch StartTag x k).
  { rewrite Q1. eapply apart; eauto. }
  destruct (proj2 Q2 (ex_intro _ l1 (ex_intro _ a (ex_intro _ l2 (conj E ON))))) as (k & K & T).
  rewrite (T1 k K T N1). destruct (start_tokens U cs void d (fill c h) HG eq_refl c h lead more pad stop ks n eq_refl F N) as (_ & TI & _).
  apply TI in K. unfold seen in K. destruct T as [T T2]. rewrite T, (f_lead _ _ _ _ _ _ _ F) in K.
  apply start_pieces in K as (_ & K & _); [|exact GA|apply (f_kind _ _ _ _ _ _ _ F)]. destruct (K eq_refl) as (l1' & a' & l2' & E' & I' & J').
  rewrite E in GA, E'. unfold on_span, name_span in ON. cbn [fst snd] in ON.
  destruct (two_attrs _ _ _ _ _ _ (hole c + 1 + length (h_name h)) GA E') as [(<- & <-)|Q]; [|exfalso; unfold attr_name_at in *; lia].
  assert (TN : tk_text t k = ha_name a).
  { unfold tk_text. rewrite J', I'. destruct (attr_text l1 a l2 _ _ _ _ _ F E) as [TX _]. unfold name_span in TX. cbn [fst snd] in TX. exact TX. }
  change (tk_text (d_text d) k) with (tk_text t k). rewrite TN, J', I'. reflexivity.
Qed.

(** Not on a tag name or an attribute name, and not in the end tag: on the values of the attributes, on
    the other parts of the start tag, and in the content outside of the elements in it. *)
Definition on_text (x : nat) : Prop :=
  in_own h (hole c) x /\ (forall e, tail_at h (hole c) = Some e -> x < e) /\
  ~ on_span (hole c + 1, hole c + 1 + length (h_name h)) x /\
  forall l1 a l2, h_attrs h = l1 ++ a :: l2 -> ~ on_span (name_span h (hole c) l1 a) x.

(** On a character reference. *)
Theorem C79_reference : forall x a b, Bd t x -> on_text x -> entity_at t x a b ->
  hovers x (reference_hover d ents a b (range_at d a (entity_end t b))).
Proof.
  intros x a b B (O & NE & NT & NA) EA. assert (EL := proj1 O).
  destruct (has_facts EL) as (lead & more & pad & stop & ks & n & F & N & N2 & N3 & N4). exists (nodes_all 0 (fill c h)). split; auto.
  assert (OX := offset_here x B). pose proof (innermost_here x n O N) as IM. rewrite <- OX in IM.
  destruct (C45_reference_range d HD x a b eq_refl (Bd_le _ _ B) EA) as (R & _). change (d_text d) with t in R. rewrite <- R.
  replace (reference_range d (position_at d x) x a b) with (reference_range d (position_at d x) (offset_at d (position_at d x)) a b) by (rewrite OX; reflexivity).
  apply (C45_reference U d cs void _ HD HP md parts providers lang ents opts (position_at d x) n _ _ a b IM N2 N3); rewrite OX; auto.
  - intros e H. apply NE. congruence.
  - destruct (x <? hole c + length (head h)) eqn:LX; [|eapply all_complete; eauto].
    destruct (tag_on x _ _ _ _ _ _ F N) as (Q1 & Q2 & _). intros (k & K & [T|T]).
    + apply NT, Q1. eauto.
    + destruct (proj1 Q2 (ex_intro _ k (conj K T))) as (l1 & a' & l2 & E & ON). eapply NA; eauto.
  - apply column_here; auto; [destruct EA; lia|]. destruct EA as (_ & A1 & _ & A3 & _). intros i Hi. apply A3. lia.
Qed.

(** On the value of an attribute or on its quotes. *)
Theorem C79_value : forall x l1 a l2 s, Bd t x -> h_attrs h = l1 ++ a :: l2 -> value_span h (hole c) l1 a = Some s -> on_span s x ->
  (forall i j, ~ entity_at t x i j) ->
  hovers x (value_hover (h_name h) (ha_name a) (plain_value a) (span s)).
Proof.
  intros x l1 a l2 s B E VS ON NE. assert (EL : is_element h) by (destruct h; cbn [h_attrs] in E; try (destruct l1; discriminate); exact I).
  destruct (has_facts EL) as (lead & more & pad & stop & ks & n & F & N & N2 & N3 & N4). exists (nodes_all 0 (fill c h)). split; auto.
  assert (VO : exists s, value_span h (hole c) l1 a = Some s /\ on_span s x) by eauto.
  assert (OX := offset_here x B). destruct (in_head l1 a l2 x _ _ _ _ _ F E (or_intror VO)) as [L O].
  pose proof (innermost_here x n O N) as IM. rewrite <- OX in IM.
  destruct (C45_start_tag U d cs void _ HD HP md parts providers lang ents opts (position_at d x) n _ _ IM N2 N3) as (_ & _ & T1 & _); [rewrite OX; lia|].
  rewrite OX in T1. cbn [d_text] in T1. destruct (tag_on x _ _ _ _ _ _ F N) as (Q1 & Q2 & Q3).
  pose proof (f_attrs _ _ _ _ _ _ _ F) as [GA _]. assert (GA' := GA). rewrite E in GA'.
  assert (Ga : good_attr a) by (apply Forall_app in GA' as [_ GA']; inversion GA'; auto).
  destruct (value_piece _ _ _ _ _ VS) as (w & z & V & -> & VZ). destruct (VZ Ga) as [ZN ZQ]. clear VZ.
  pose proof (value_length _ _ _ V) as VL. set (oa := hole c + 1 + length (h_name h)) in *.
  assert (ONa : attr_name_at oa l1 a + length (ha_name a) + length w + 1 <= x <= attr_name_at oa l1 a + length (ha_name a) + length w + 1 + length z).
  { unfold on_span, name_span in ON. cbn [fst snd] in ON. unfold attr_name_at, oa. lia. }
  assert (NNA : 0 < length (ha_name a)) by (destruct Ga as (_ & _ & Q & _); destruct (ha_name a); [congruence|cbn; lia]).
  assert (N1 : ~ exists k, start_tag_token U d cs n (hole c + length (head h)) k /\ touch StartTag x k).
  { rewrite Q1. eapply apart; eauto. }
  assert (NN : ~ exists k, start_tag_token U d cs n (hole c + length (head h)) k /\ touch AttributeName x k).
  { rewrite Q2. intros (l1' & a' & l2' & E' & ON'). rewrite E in E'. unfold on_span, name_span in ON'. cbn [fst snd] in ON'. fold oa in ON'.
    destruct (two_attrs _ _ _ _ _ _ oa GA' E') as [(<- & <-)|Q]; unfold attr_name_at in *; lia. }
  assert (VO' : exists l1 a l2 sp, h_attrs h = l1 ++ a :: l2 /\ value_span h (hole c) l1 a = Some sp /\ on_span sp x) by (eexists l1, a, l2, _; eauto).
  destruct (proj2 Q3 VO') as (k & K & T). destruct (T1 k K T N1 NN NE (column_here x B)) as (before & ka & v & VN & UQ & BE & SS & HR).
  rewrite HR. clear HR T1. destruct (start_tokens U cs void d (fill c h) HG eq_refl c h lead more pad stop ks n eq_refl F N) as (_ & TI & TO).
  assert (SK := f_kind _ _ _ _ _ _ _ F). assert (LD := f_lead _ _ _ _ _ _ _ F). rewrite LD in TI, TO. 
  destruct (attr_text l1 a l2 _ _ _ _ _ F E) as [TX1 TX2]. specialize (TX2 w z V).
  (* the value *)
  assert (KV : tk_off k = attr_name_at oa l1 a + length (ha_name a) + length w + 1 /\ tk_end k = tk_off k + length z).
  { apply TI in K. unfold seen in K. destruct T as [T T2]. rewrite T in K.
    apply start_pieces in K as (_ & _ & K); [|exact GA|exact SK]. destruct (K eq_refl) as (l1' & a' & l2' & w' & z' & E' & V' & I' & J').
    rewrite E in E'. pose proof (value_length _ _ _ V') as VL'. fold oa in I'.
    destruct (two_attrs _ _ _ _ _ _ oa GA' E') as [(<- & <-)|Q]; [rewrite V in V'; injection V' as <- <-; auto|exfalso; lia]. }
  destruct KV as [KV1 KV2].
  assert (TK : tk_text t k = z).
  { unfold tk_text. rewrite KV2, KV1. unfold name_span in TX2. cbn [fst snd] in TX2. exact TX2. }
  change (tk_text (d_text d) k) with (tk_text t k) in UQ. rewrite TK in UQ. rewrite <- (unquoted_one _ _ _ ZQ UQ).
  (* its name *)
  assert (KN : exists kn, In kn before /\ seen kn = (AttributeName, attr_name_at oa l1 a, attr_name_at oa l1 a + length (ha_name a))).
  { rewrite E in TO. destruct (TO _ (proj1 (attr_pieces (h_name h) l1 a l2 pad (ks, stop) (hole c) Ga))) as (kn & KN1 & KN2). exists kn. split; auto.
    apply BE. split; auto. unfold seen in KN2. injection KN2 as _ _ ->. fold oa. lia. }
  destruct KN as (kn & KN1 & KN2). unfold seen in KN2. injection KN2 as KN2 KN3 KN4.
  destruct VN as (b1 & b2 & EB & TA & FB). rewrite EB in KN1.
  assert (KA : In ka before) by (rewrite EB; apply in_or_app; cbn; auto). apply BE in KA as [KA LA]. apply TI in KA. unfold seen in KA. rewrite TA in KA.
  apply start_pieces in KA as (_ & KA & _); [|exact GA|exact SK]. destruct (KA eq_refl) as (l1' & a' & l2' & E' & I' & J'). fold oa in I'.
  rewrite E in E'.
  assert (SAME : l1 = l1' /\ a = a').
  { destruct (two_attrs _ _ _ _ _ _ oa GA' E') as [Q|[Q|Q]]; auto; exfalso.
    - lia.
    - apply in_app_iff in KN1 as [KN1|[->|KN1]].
      + rewrite EB in SS. assert (LE : tk_end kn <= tk_off ka).
        { clear - SS KN1. induction b1 as [|u b1 IH]; [destruct KN1|]. cbn [app] in SS. inversion SS as [|? ? S1 S2]; subst. destruct KN1 as [->|KN1]; [|auto].
          rewrite Forall_forall in S2. apply S2. apply in_or_app. cbn; auto. }
        lia.
      + lia.
      + rewrite Forall_forall in FB. destruct (FB _ KN1) as [Q'|Q']; congruence. }
  destruct SAME as [<- <-].
  assert (TN : tk_text t ka = ha_name a).
  { unfold tk_text. rewrite J', I'. unfold name_span in TX1. cbn [fst snd] in TX1. exact TX1. }
  change (tk_text (d_text d) ka) with (tk_text t ka). rewrite TN, KV2, KV1. unfold name_span. cbn [fst snd]. reflexivity.
Qed.

(** Elsewhere in the element. *)
Theorem C79_elsewhere : forall x, Bd t x -> on_text x ->
  (forall l1 a l2 s, h_attrs h = l1 ++ a :: l2 -> value_span h (hole c) l1 a = Some s -> ~ on_span s x) ->
  (forall i j, ~ entity_at t x i j) ->
  hovers x (first_some hp_content parts).
Proof.
  intros x B (O & NE & NT & NA) NV EA. assert (EL := proj1 O).
  destruct (has_facts EL) as (lead & more & pad & stop & ks & n & F & N & N2 & N3 & N4). exists (nodes_all 0 (fill c h)). split; auto.
  assert (OX := offset_here x B). pose proof (innermost_here x n O N) as IM. rewrite <- OX in IM.
  destruct (Nat.lt_ge_cases x (hole c + length (head h))) as [LX|LX].
  - destruct (C45_start_tag U d cs void _ HD HP md parts providers lang ents opts (position_at d x) n _ _ IM N2 N3) as (_ & _ & _ & T1); [rewrite OX; lia|].
    rewrite OX in T1. destruct (tag_on x _ _ _ _ _ _ F N) as (Q1 & Q2 & Q3). apply T1; auto.
    + rewrite Q1. auto.
    + rewrite Q2. intros (l1 & a & l2 & E & ON). eapply NA; eauto.
    + rewrite Q3. intros (l1 & a & l2 & s & E & VS & ON). eapply NV; eauto.
    + apply column_here; auto.
  - apply (C45_content U d cs void _ HD HP md parts providers lang ents opts (position_at d x) n _ _ IM N2 N3); rewrite OX; auto.
    + intros e H. apply NE. congruence.
    + eapply all_complete; eauto.
    + apply column_here; auto.
Qed.
(** In the end tag off its name: nothing. *)
Theorem C79_end_tag : forall x e, Bd t x -> tail_at h (hole c) = Some e -> e <= x < hole c + length (render h) ->
  (forall s, In s (names_at h (hole c)) -> ~ on_span s x) -> hovers x None.
Proof.
  intros x e B TE L NS. destruct (end_here e TE) as (close & pad & r & GC & GP & A & NM & _).
  pose proof (end_hover x e close pad r B TE GC GP A L) as H.
  specialize (NS (e + 2, e + 2 + length close)). rewrite NM in NS. specialize (NS ltac:(cbn; auto)). unfold on_span in NS. cbn [fst snd] in NS.
  replace ((e + 2 <=? x) && (x <=? e + 2 + length close)) with false in H by lia. exact H.
Qed.
End Hover.
(** Outside of all elements: nothing. *)
Theorem C79_outside : forall U cs void md parts providers lang ents opts l x, good_doc U cs void l -> Bd (render_all l) x ->
  (forall c h, l = fill c h -> is_element h -> ~ hole c <= x < hole c + length (render h)) ->
  let d := utf16_doc (render_all l) in
  exists roots, parse U (render_all l) cs void = Ok roots /\
    do_hover U d cs md parts providers lang ents opts (position_at d x) roots = Ok None.
Proof.
  intros U cs void md parts providers lang ents opts l x G B NO d. exists (nodes_all 0 l).
  pose proof (good_utf8 _ _ _ _ G) as HU. pose proof (C27_contract _ HU) as HD. pose proof (C21_round_trip U cs void l G) as HP. split; auto.
  assert (OX : offset_at d (position_at d x) = x) by (apply (do_inv _ HD); [apply Bd_le; auto|apply Bd_boundary; auto]).
  destruct (find_at_innermost _ _ _ _ _ x HU HP) as [[F _]|(n & ps & _ & I & _)].
  - unfold do_hover. rewrite OX, F. reflexivity.
  - exfalso. destruct (innermost_own U cs void d l G eq_refl x n I) as (c & h & E & _ & O & L & _). eapply NO; eauto.
Qed.
(** These are all the cases: an offset is in the text of no element, or in that of one element and in
    none of the elements inside it. *)
Theorem C79_cases : forall U cs void l x, good_doc U cs void l ->
  (exists c h, l = fill c h /\ in_own h (hole c) x) \/
  (forall c h, l = fill c h -> is_element h -> ~ hole c <= x < hole c + length (render h)).
Proof.
  intros U cs void l x G. pose proof (good_utf8 _ _ _ _ G) as HU. pose proof (C21_round_trip U cs void l G) as HP.
  destruct (find_at_innermost _ _ _ _ _ x HU HP) as [[F0 _]|(n & ps & _ & I & _)].
  - destruct (C23_find_node_at _ _ _ _ _ x HU HP) as (r & F1 & N). rewrite F0 in F1. apply Ok_inj in F1. subst r.
    right. intros c h E EL L.
    assert (GH : good U cs void h) by (apply good_hole with (c := c); rewrite <- E; auto).
    destruct (element_facts U cs void h GH EL) as (lead & more & pad & stop & ks & F).
    destruct (f_node _ _ _ _ _ _ _ F (hole c)) as (n & M & N1 & _ & _ & _ & N5 & _).
    destruct (hole_node c h n 0 M) as [I1 _]. rewrite <- E in I1. apply (N n I1). lia.
  - left. destruct (innermost_own U cs void (utf16_doc (render_all l)) l G eq_refl x n I) as (c & h & E & _ & O). eauto.
Qed.

(** ** A document *)
From Verif Require Import PropHoverDoc.
Definition div_h : html :=
  HElement (bs "div") [mkHAttr (bs " ") (bs "align") (Quoted [] 39%N (bs "left")); mkHAttr (bs " ") (bs "title") (Quoted [] 34%N (bs "&lt;"))] []
    [HText (bs "a &lt; b")] (bs "DIV") (bs " ").
Definition div_ctx : ctx := Here [HText (bs "x")] [].
Example div_text : render_all (fill div_ctx div_h) = bs "x<div align='left' title=""&lt;"">a &lt; b</DIV >".
Proof. reflexivity. Qed.
Lemma div_good : good_doc demo_unicode false html5_void (fill div_ctx div_h).
Proof.
  split; [|cbn; auto]. apply Forall_cons; [|apply Forall_cons; [|apply Forall_nil]].
  - apply G_text. split; [discriminate|]. split; [apply ascii_utf8; reflexivity|cbn; intuition discriminate].
  - apply G_element; try name; try blanks.
    + intros [H|H]; discriminate.
    + intros H. cbn in H. intuition discriminate.
    + attrs_tac; attr_tac; cbn [ha_value]; (split; [blanks|]); (split; [auto|]); (split; [apply ascii_utf8; reflexivity|cbn; intuition discriminate]).
    + apply Forall_cons; [|apply Forall_nil]. apply G_text. split; [discriminate|]. split; [apply ascii_utf8; reflexivity|cbn; intuition discriminate].
    + cbn. auto.
    + reflexivity.
Qed.
(** The cases of the theorems: the tag names, an attribute, its value, a reference in a value and one in the
    text, the text and the end of the end tag. *)
Example C79_demo : let t := render_all (fill div_ctx div_h) in
  names_at div_h (hole div_ctx) = [(2, 5); (42, 45)] /\
  (exists a l2, h_attrs div_h = [] ++ a :: l2 /\ name_span div_h (hole div_ctx) [] a = (6, 11) /\ value_span div_h (hole div_ctx) [] a = Some (12, 18) /\ plain_value a = bs "left") /\
  on_text div_ctx div_h 28 /\ entity_at t 28 27 29 /\ entity_end t 29 = 30 /\
  on_text div_ctx div_h 36 /\ entity_at t 36 35 37 /\
  on_text div_ctx div_h 33 /\ (forall i j, ~ entity_at t 14 i j) /\ (forall i j, ~ entity_at t 33 i j) /\
  tail_at div_h (hole div_ctx) = Some 40 /\ hole div_ctx + length (render div_h) = 47 /\
  Forall (Bd t) [3; 8; 14; 28; 33; 36; 44; 46].
Proof.
  intros t.
  assert (OT : forall x, 24 < x < 40 -> on_text div_ctx div_h x).
  { intros x L. change (hole div_ctx) with 1. split; [|split; [|split]].
    - split; [exact I|]. split; [change (length (render div_h)) with 46; change (hole div_ctx) with 1; lia|]. cbn [div_h].
      intros b k a EB EK. exfalso. destruct b as [|u b]; [injection EB as <- _; destruct EK|destruct b; discriminate].
    - intros e E. vm_compute in E. apply Some_inj in E. lia.
    - unfold on_span. change (hole div_ctx) with 1. cbn [fst snd]. change (length (h_name div_h)) with 3. lia.
    - intros l1 a l2 E. unfold on_span, name_span. change (hole div_ctx) with 1. change (length (h_name div_h)) with 3. cbn [fst snd].
      destruct l1 as [|u l1]; [injection E as <- _; cbn; lia|]. destruct l1 as [|u' l1]; [injection E as <- <- _; cbn; lia|]. destruct l1; discriminate. }
  assert (NA : forall x i j, x < 27 \/ nth_error t 34 = Some 38%N /\ x = 33 -> ~ entity_at t x i j).
  { intros x i j H (P & L & A & B & _). destruct (Nat.lt_ge_cases x 27) as [K|K].
    - assert (Q : forall k, k < 26 -> nth_error t k <> Some 38%N).
      { intros k Hk. do 26 (destruct k as [|k]; [vm_compute; discriminate|]). lia. }
      apply (Q (i - 1)); auto. lia.
    - destruct H as [H|[_ ->]]; [lia|]. destruct (Nat.eq_dec i 33) as [->|N]; [vm_compute in A; discriminate|].
      destruct (Nat.lt_ge_cases 32 i) as [Hi|Hi]; [lia|]. destruct (Nat.eq_dec i 27) as [-> |N2].
      + destruct (B 29) as (c & C & D); [lia|]. vm_compute in C. apply Some_inj in C. subst c. unfold alnum in D. lia.
      + assert (Q : forall k, k < 32 -> k <> 26 -> nth_error t k <> Some 38%N).
        { intros k Hk Nk. do 32 (destruct k as [|k]; [first [vm_compute; discriminate|exfalso; apply Nk; reflexivity]|]). lia. }
        apply (Q (i - 1)); auto; lia. }
  assert (EN : forall a, a = 27 \/ a = 35 -> entity_at t (a + 1) a (a + 2)).
  { intros a Ha. assert (HA : nth_error t (a - 1) = Some 38%N /\ nth_error t a = Some 108%N /\ nth_error t (a + 1) = Some 116%N /\ nth_error t (a + 2) = Some 59%N) by (destruct Ha as [-> | ->]; vm_compute; auto).
    destruct HA as (A1 & A2 & A3 & A4). split; [lia|]. split; [lia|]. split; [auto|]. split.
    - intros i Hi. assert (i = a \/ i = a + 1) as [-> | ->] by lia; eexists; (split; [eassumption|unfold alnum; lia]).
    - intros c C. rewrite A4 in C. apply Some_inj in C. subst c. unfold alnum. lia. }
  split; [reflexivity|]. split; [eexists _, _; repeat split|]. split; [apply OT; lia|]. split; [apply (EN 27); auto|]. split; [reflexivity|].
  split; [apply OT; lia|]. split; [apply (EN 35); auto|]. split; [apply OT; lia|]. split; [intros; apply NA; lia|]. split; [intros; apply NA; right; split; [reflexivity|auto]|].
  split; [reflexivity|]. split; [reflexivity|].
  assert (HT : Utf8 t) by (apply ascii_utf8; reflexivity).
  repeat (constructor; [apply boundary_Bd; [exact HT|vm_compute; lia|vm_compute; reflexivity]|]). constructor.
Qed.
(** What is shown there. *)
Example C79_results : let run := hover_run false (render_all (fill div_ctx div_h)) in
  let div := HMarkup (mkMarkup PlainText (bs "A *division*." ++ [10%N; 10%N] ++ bs "MDN: https://m.org/div")) in
  let lt := HMarkup (mkMarkup PlainText (bs "Character entity representing '<', unicode equivalent 'U+003C'")) in
  run 3 = Ok (Some (div, 2, 5)) /\ run 44 = Ok (Some (div, 42, 45)) /\ run 46 = Ok None /\
  run 8 = Ok (Some (HMarkup (mkMarkup PlainText (bs "How to align")), 6, 11)) /\
  run 14 = Ok (Some (HMarkup (mkMarkup PlainText (bs "To the left")), 12, 18)) /\
  run 28 = Ok (Some (lt, 27, 30)) /\ run 36 = Ok (Some (lt, 35, 38)) /\ run 33 = Ok None /\ run 0 = Ok None.
Proof. vm_compute. repeat split. Qed.
Print Assumptions C79_tag.
Print Assumptions C79_attribute.
Print Assumptions C79_value.
Print Assumptions C79_reference.
Print Assumptions C79_elsewhere.
Print Assumptions C79_end_tag.
Print Assumptions C79_outside.
Print Assumptions C79_cases.
