(** * C80: completion in well-formed documents *)
From Verif Require Import SelectionRange PropTags PropSelection Base BaseFacts Stream Scanner ScannerFacts ScanStep ScanProps ScanShape ScanPanic Tree
  Parser ParseSpec ParseInv ParseOrder PropParse TreeFacts PropTree ParseEnd PropEnd TextDoc PropDoc
  SelAttr TokenLoop NodeScan DataManager PropData BuiltinData Entities Hover Completion PropTagComplete
  PropHover PropComplete PropEdits PropAnswers PropProposals Render RenderFacts PropRender PropRename FormatFacts FormatWords PropLinks LayoutTree ParseKeep PropTyped PropScan ScanComplete
  PropAccept Lexing PropTokens PropTagDoc PropHoverTree.
From Coq Require Import ZifyBool ZifyNat ZifyN Permutation.

(** ** Specification *)
(** The innermost element around a place: its name and where it begins. *)
Fixpoint outer (c : ctx) : option (str * nat) :=
  match c with
  | Here _ _ => None
  | Inside b name attrs pad c' _ _ _ =>
      match outer c' with
      | Some (y, s) => Some (y, length (render_all b) + length (start_tag name attrs pad (bs ">")) + s)
      | None => Some (name, length (render_all b))
      end
  end.

(** The name in the end tag of an element. *)
Definition close_name (h : html) : str :=
  match h with
  | HElement _ _ _ _ close _ => close
  | HRaw name _ _ _ _ => name
  | _ => []
  end.
(** The end tags of all the tags of the providers in use. *)
Definition all_end_tags (md : bool) (providers : list provider) (lang : str) (settings : option completion_settings) (items : list item) : Prop :=
  forall x doc, In (x, doc) (map (fun i => (ci_label i, ci_doc i)) items) <->
    exists q td, in_use providers lang settings q /\ In td (pv_tags q) /\ x = bs "/" ++ t_name td /\
      doc = as_doc (generate_documentation (t_desc td) (t_refs td) true true md).

(** White space in front of the '=' of an attribute, and in front of the end of a start tag. *)
Definition gap_of (v : hvalue) : str := match v with NoValue => [] | Bare gap _ | Quoted gap _ _ => gap end.
Definition h_pad (h : html) : str :=
  match h with
  | HElement _ _ pad _ _ _ | HRaw _ _ pad _ _ | HVoid _ _ pad | HSelf _ _ pad => pad
  | HText _ | HComment _ | HDoctype _ _ => []
  end.
(** The offset [x] is where a name of an attribute is or can be written, in the start tag of [h]: the
    name of the attribute there, if any; where it begins and ends; whether a '=' follows. *)
Inductive attr_place (h : html) (o x : nat) : option str -> nat -> nat -> bool -> Prop :=
| P_name l1 a l2 : h_attrs h = l1 ++ a :: l2 -> fst (name_span h o l1 a) < x <= snd (name_span h o l1 a) ->
    attr_place h o x (Some (ha_name a)) (fst (name_span h o l1 a)) (snd (name_span h o l1 a)) (match ha_value a with NoValue => false | _ => true end)
| P_space l1 a l2 : h_attrs h = l1 ++ a :: l2 -> o + 1 + length (h_name h) + length (render_attrs l1) < x <= fst (name_span h o l1 a) ->
    attr_place h o x None x x false
| P_gap l1 a l2 : h_attrs h = l1 ++ a :: l2 -> snd (name_span h o l1 a) < x <= snd (name_span h o l1 a) + length (gap_of (ha_value a)) ->
    attr_place h o x None x x true
| P_pad : o + 1 + length (h_name h) + length (render_attrs (h_attrs h)) < x <= o + 1 + length (h_name h) + length (render_attrs (h_attrs h)) + length (h_pad h) ->
    attr_place h o x None x x false.

(** ** Nodes *)
Lemma nodes_closed l : forall o m, In m (flat_map preorder (nodes_all o l)) -> n_closed m = true.
Proof.
  intros o m I. destruct (from_hole l o m I) as (c & h & E & N).
  destruct h; cbn [nodes_from] in N; try discriminate; apply (f_equal (@hd_error node)), Some_inj in N; subst m; reflexivity.
Qed.
(** The innermost element around the hole, as a node. *)
Lemma outer_node c h : forall o y s, outer c = Some (y, s) -> exists m e, In m (flat_map preorder (nodes_all o (fill c h))) /\
  n_start m = o + s /\ n_tag m = Some y /\ n_ets m = Some e /\ o + hole c + length (render h) <= e /\
  s < hole c /\ forall n, nodes_from (o + hole c) h = [n] -> In n (flat_map preorder (n_children m)).
Proof.
  induction c as [b a|b name attrs pad c IH close pad2 a]; intros o y s E; cbn [outer] in E; [discriminate|].
  assert (IN : forall m, In m (flat_map preorder (nodes_all (o + length (render_all b) + length (start_tag name attrs pad (bs ">"))) (fill c h))) ->
            In m (flat_map preorder (nodes_all o (fill (Inside b name attrs pad c close pad2 a) h)))).
  { intros m I. cbn [fill]. rewrite nodes_app, flat_map_app, in_app_iff. right. unfold nodes_all at 1. cbn [nodes_with]. rewrite flat_map_app, in_app_iff. left.
    cbn [nodes_from flat_map preorder app]. right. rewrite app_nil_r. cbn [n_children]. exact I. }
  assert (RL : hole c + length (render h) <= length (render_all (fill c h))).
  { destruct (around c) as (pre & post & LP & R). rewrite R, !app_length. lia. }
  destruct (outer c) as [[y' s']|] eqn:OC.
  - apply Some_inj, pair_equal_spec in E as [<- <-]. destruct (IH (o + length (render_all b) + length (start_tag name attrs pad (bs ">"))) y' s' eq_refl) as (m & e & M & S & T & ET & LE & SH & SUB).
    exists m, e. split; [auto|]. split; [lia|]. split; [auto|]. split; [auto|]. cbn [hole]. split; [lia|]. split; [lia|].
    intros n N. apply SUB. rewrite <- N. f_equal. lia.
  - apply Some_inj, pair_equal_spec in E as [<- <-].
    set (m := mkNode (Some name) (o + length (render_all b)) (o + length (render_all b) + length (start_tag name attrs pad (bs ">")) + length (render_all (fill c h)) + length (end_tag close pad2))
      (nodes_all (o + length (render_all b) + length (start_tag name attrs pad (bs ">"))) (fill c h)) true (Some (o + length (render_all b) + length (start_tag name attrs pad (bs ">"))))
      (Some (o + length (render_all b) + length (start_tag name attrs pad (bs ">")) + length (render_all (fill c h)))) (attrs_from (o + length (render_all b) + 1 + length name) attrs)).
    exists m. eexists. split.
    { cbn [fill]. rewrite nodes_app, flat_map_app, in_app_iff. right. unfold nodes_all at 1. cbn [nodes_with]. rewrite flat_map_app, in_app_iff. left.
      cbn [nodes_from flat_map preorder app]. left. reflexivity. }
    split; [reflexivity|]. split; [reflexivity|]. split; [reflexivity|]. cbn [hole]. split; [lia|].
    split; [unfold start_tag; rewrite app_length; change (length (bs "<")) with 1; lia|].
    intros n N. cbn [m n_children]. apply (hole_node c h n). rewrite <- N. f_equal. lia.
Qed.
(** There is no element between the two. *)
Lemma outer_last c h : forall o m, In m (flat_map preorder (nodes_all o (fill c h))) ->
  n_start m < o + hole c -> o + hole c < n_end m -> exists y s, outer c = Some (y, s) /\ n_start m <= o + s.
Proof.
  induction c as [b a|b name attrs pad c IH close pad2 a]; intros o m I L1 L2; cbn [fill] in I; rewrite nodes_app, flat_map_app, in_app_iff in I;
    cbn [hole] in *; (destruct I as [I|I]; [apply bounds_all in I; lia|]).
  - apply bounds_all in I. lia.
  - unfold nodes_all in I. cbn [nodes_with] in I. rewrite flat_map_app, in_app_iff in I. destruct I as [I|I].
    + cbn [nodes_from flat_map preorder app] in I. rewrite app_nil_r in I. cbn [n_children] in I. destruct I as [<-|I].
      * cbn [n_start]. cbn [outer]. destruct (outer c) as [[y s]|]; eexists _, _; (split; [reflexivity|lia]).
      * destruct (IH _ _ I ltac:(lia) ltac:(lia)) as (y & s & E & L). cbn [outer]. rewrite E. eexists _, _. split; [reflexivity|lia].
    + match type of I with In _ (flat_map preorder (nodes_with nodes_from ?q a)) => change (nodes_with nodes_from q a) with (nodes_all q a) in I end. apply bounds_all in I. cbn [render] in I. rewrite !app_length in I.
      destruct (around c) as (pre & post & LP & R). specialize (R h). unfold render_all in *. rewrite R, !app_length in I. lia.
Qed.

(** ** The tokens around a piece *)
Lemma place_split A k w B ks : map seen ks = place 0 (filter written (A ++ (k, w) :: B)) -> w <> [] ->
  exists l1 tk l2, ks = l1 ++ tk :: l2 /\ map seen l1 = place 0 (filter written A) /\ seen tk = (k, length (joined A), length (joined A) + length w) /\
    map seen l2 = place (length (joined A) + length w) (filter written B).
Proof.
  intros E W. rewrite filter_app, place_app, joined_written in E. cbn [filter] in E. unfold written at 2 in E. cbn [snd] in E.
  destruct w as [|b w]; [congruence|]. cbn [place] in E. apply map_eq_app in E as (l1 & l2 & -> & E1 & E2).
  apply map_eq_cons in E2 as (tk & l3 & -> & E2 & E3). exists l1, tk, l3. auto.
Qed.
Lemma place_last ks A k w : map seen ks = place 0 (filter written (A ++ [(k, w)])) -> w <> [] ->
  exists l0 tk, ks = l0 ++ [tk] /\ map seen l0 = place 0 (filter written A) /\ seen tk = (k, length (joined A), length (joined A) + length w).
Proof.
  intros E W. destruct (place_split A k w [] ks E W) as (l1 & tk & l2 & -> & E1 & E2 & E3). destruct l2; [|discriminate]. eauto.
Qed.
Lemma place_skip ks A k : map seen ks = place 0 (filter written (A ++ [(k, [])])) -> map seen ks = place 0 (filter written A).
Proof. rewrite filter_app. cbn [filter]. unfold written at 2. cbn [snd]. rewrite app_nil_r. auto. Qed.

Section Complete.
Variables (U : unicode) (cs : bool) (void : list str) (d : textdoc) (c : ctx) (h : html).
Hypothesis HG : good_doc U cs void (fill c h).
Hypothesis HD : textdoc_ok d.
Hypothesis HT : d_text d = render_all (fill c h).
Notation t := (d_text d).
Notation roots := (nodes_all 0 (fill c h)).
Let HU : Utf8 t := do_utf8 _ HD.
Let GH : good U cs void h := good_hole U cs void c h HG.
Lemma parsed : parse U t cs void = Ok roots.
Proof. rewrite HT. apply C21_round_trip. auto. Qed.
Lemma node_of : is_element h -> exists n, nodes_from (hole c) h = [n] /\ In n (doc_nodes roots) /\ n_start n = hole c /\ n_tag n = Some (h_name h) /\
  n_ste n = Some (hole c + length (head h)) /\ n_ets n = tail_at h (hole c) /\ n_end n = hole c + length (render h).
Proof.
  intros EL. destruct (element_facts U cs void h GH EL) as (lead & more & pad & stop & ks & F).
  destruct (f_node _ _ _ _ _ _ _ F (hole c)) as (n & N & N1 & N2 & N3 & N4 & N5 & _). exists n. split; [auto|].
  split; [apply (hole_node c h n 0); auto|]. auto 8.
Qed.

(** The nearest element that is open is the one around the hole. *)
Lemma near_outer x n (P : node -> Prop) : is_element h -> nodes_from (hole c) h = [n] -> x < hole c + length (render h) ->
  (forall m, In m (doc_nodes roots) -> P m -> still_open x m -> inside n m) -> (forall m, In m (doc_nodes roots) -> inside n m -> P m) ->
  (forall y s, outer c = Some (y, s) -> exists m, n_start m = s /\ nearest roots x P m y) /\ (outer c = None -> forall m z, ~ nearest roots x P m z).
Proof.
  intros EL N L P1 P2. destruct (node_of EL) as (n' & N' & I & S1 & _ & _ & _ & S2). rewrite N in N'. apply (f_equal (@hd_error node)), Some_inj in N'. subst n'.
  assert (UP : forall m, In m (doc_nodes roots) -> inside n m -> exists y s, outer c = Some (y, s) /\ n_start m <= s).
  { intros m M IN. destruct (inside_bounds U d cs void roots HD parsed n m M IN) as (B1 & B2 & _).
    destruct (outer_last c h 0 m M) as (y & s & E & LE); [lia| |eauto]. destruct (span U d cs void roots HD parsed n I) as (SP & _). lia. }
  split.
  - intros y s E. destruct (outer_node c h 0 y s E) as (m & e & M & M1 & M2 & M3 & M4 & M5 & M6). specialize (M6 n N). exists m. split; [auto|].
    split; [auto|]. split; [apply P2; auto|]. split; [auto|]. split; [right; exists e; split; [auto|lia]|].
    intros m' A B _ D. destruct (UP m' A (P1 m' A B D)) as (y' & s' & E' & LE). rewrite E in E'. apply Some_inj, pair_equal_spec in E' as [_ <-]. cbn in M1. lia.
  - intros E m z (A & B & _ & D & _). destruct (UP m A (P1 m A B D)) as (y' & s' & E' & _). congruence.
Qed.
(** In the end tag. *)
Lemma found_in_tail x e n : tail_at h (hole c) = Some e -> e < x < hole c + length (render h) -> nodes_from (hole c) h = [n] ->
  exists m ps, find_node_before roots x = Ok (Some (m, ps)) /\
    (forall k, In k (doc_nodes roots) -> k = m \/ inside m k -> still_open x k -> inside n k) /\
    (forall k, In k (doc_nodes roots) -> inside n k -> k = m \/ inside m k).
Proof.
  intros TE L N. assert (EL : is_element h) by (destruct h; try discriminate; exact I).
  destruct (node_of EL) as (n' & N' & IN & S1 & _ & _ & ES & S2). rewrite N in N'. apply (f_equal (@hd_error node)), Some_inj in N'. subst n'. rewrite TE in ES.
  pose proof (inside_bounds U d cs void roots HD parsed) as IB. pose proof (span U d cs void roots HD parsed) as SP. pose proof (lam U d cs void roots HD parsed) as LM.
  destruct (tail_after U cs void h _ _ GH TE) as [TA1 TA2]. assert (LH : hole c < e) by (destruct (element_facts U cs void h GH EL) as (lead & more & pad & stop & ks & F); rewrite (f_head _ _ _ _ _ _ _ F) in TA1; unfold start_tag in TA1; rewrite app_length in TA1; change (length (bs "<")) with 1 in TA1; lia).
  assert (TRANS : forall a b k, In a (doc_nodes roots) -> In b (doc_nodes roots) -> In k (doc_nodes roots) -> inside a b -> inside b k -> inside a k).
  { intros a b k A B K Q1 Q2. destruct (IB _ _ B Q1) as (B1 & B2 & _). destruct (IB _ _ K Q2) as (B3 & B4 & _). destruct (SP a A) as (B5 & _).
    destruct (LM a k A K) as [->|[Q|[Q|[Q|Q]]]]; auto; try lia. apply (IB _ _ A) in Q. lia. }
  destruct (found_total U d cs void roots HD parsed x) as ([[m ps]|] & F); [|apply (found_none U d cs void roots HD parsed) with (m := n) in F; auto; lia].
  exists m, ps. split; [auto|]. destruct (found U d cs void roots HD parsed _ _ _ F) as (_ & IM & LX & _ & z & IZ & LZ & LAZ & Z).
  assert (ZN : z = n \/ inside z n).
  { pose proof (LAZ n IN ltac:(lia)). destruct (SP z IZ) as (Q1 & _). destruct (SP n IN) as (Q2 & _).
    destruct (LM z n IZ IN) as [Q|[Q|[Q|[Q|Q]]]]; auto; try lia. apply (IB _ _ IZ) in Q. lia. }
  assert (MN : m = n \/ inside m n).
  { destruct Z as [<-|[Z1 Z2]]; auto. destruct (SP z IZ) as (Q1 & _). destruct (IB _ _ IM Z1) as (Q3 & Q4 & _).
    assert (Q5 : n_start n <= n_start z /\ n_end z <= n_end n) by (destruct ZN as [->|Q]; [lia|apply (IB _ _ IN) in Q; lia]).
    destruct (LM m n IM IN) as [Q|[Q|[Q|[Q|Q]]]]; auto; try lia. exfalso. apply Z2. left. apply (IB _ _ IM) in Q. lia. }
  assert (MB : n_start n <= n_start m /\ n_end m <= n_end n) by (destruct MN as [->|Q]; [lia|apply (IB _ _ IN) in Q; lia]).
  split.
  - intros k K KM SO. destruct (SP k K) as (Q1 & _). destruct (SP m IM) as (Q2 & _).
    assert (KB : n_start k <= n_start m /\ n_end m <= n_end k) by (destruct KM as [->|Q]; [lia|apply (IB _ _ K) in Q; lia]).
    destruct SO as [SO|(e' & E' & LE)]; [rewrite (nodes_closed _ _ _ K) in SO; discriminate|].
    destruct (LM k n K IN) as [->|[Q|[Q|[Q|Q]]]]; auto; try lia.
    + rewrite ES in E'. apply Some_inj in E'. lia.
    + exfalso. destruct (IB _ _ IN Q) as (_ & _ & Q3). specialize (Q3 e ES). destruct (SP k K) as (_ & _ & S3). rewrite E' in S3. destruct (n_ste k); [lia|contradiction].
  - intros k K Q. destruct MN as [->|MN]; auto. right. eapply (TRANS m n k); eauto.
Qed.

(** ** Tokens *)
Lemma token_here k i j : In (k, i, j) (place (hole c) (filter written (lex h))) ->
  exists ks tk, doc_tokens U t cs = Ok ks /\ In tk ks /\ tk_type tk = k /\ tk_off tk = i /\ tk_end tk = j.
Proof.
  intros I. destruct (tokens_placed U cs void d _ HG HT) as (ks & T & P). destruct (lex_fill c) as (a & b & LA & E).
  rewrite E, !filter_app, !place_app, joined_written, LA in P.
  assert (X : In (k, i, j) (map seen ks)) by (rewrite P, !in_app_iff; auto).
  apply in_map_iff in X as (tk & X & Y). unfold seen in X. exists ks, tk. split; [auto|]. split; [auto|]. inversion X. auto.
Qed.
Lemma head_text : is_element h -> exists pad stop post, head h = start_tag (h_name h) (h_attrs h) pad stop /\ (exists b r, stop = b :: r /\ (b = 62%N \/ b = 47%N)) /\
  good_name U (h_name h) /\ good_attrs (h_attrs h) /\ blank pad /\ at_ t (hole c) (start_tag (h_name h) (h_attrs h) pad stop ++ post) /\
  length (head h) <= length (render h).
Proof.
  intros EL. destruct (element_facts U cs void h GH EL) as (lead & more & pad & stop & ks & F). destruct (node_of EL) as (n & N & _).
  destruct (at_hole U cs void d HD (fill c h) HG HT c h eq_refl (ex_intro _ n N)) as (post & A). destruct (f_render _ _ _ _ _ _ _ F) as (rest & R).
  exists pad, stop, (rest ++ post). split; [exact (f_head _ _ _ _ _ _ _ F)|]. split; [exact (f_stop _ _ _ _ _ _ _ F)|].
  split; [exact (f_name _ _ _ _ _ _ _ F)|]. split; [exact (f_attrs _ _ _ _ _ _ _ F)|]. split; [exact (f_pad _ _ _ _ _ _ _ F)|].
  rewrite R, (f_head _ _ _ _ _ _ _ F), <- app_assoc in A. split; [auto|]. rewrite R, app_length. lia.
Qed.
Lemma head_length : is_element h -> 1 + length (h_name h) + length (render_attrs (h_attrs h)) < length (head h) <= length (render h).
Proof.
  intros EL. destruct (head_text EL) as (pad & stop & post & -> & (b & r & -> & _) & _ & _ & _ & _ & L). split; [|auto].
  unfold start_tag. rewrite !app_length. change (length (bs "<")) with 1. cbn [length]. lia.
Qed.
Lemma named p n b s e : at_ t p (n ++ b :: s) -> good_name U n -> stops b -> name_from U t p e -> e = p + length n.
Proof.
  intros A G SB [N|[-> N]].
  - eapply name_end; eauto. destruct N as (c0 & l & SC & E & _). destruct (Nat.le_gt_cases p e); [auto|]. exfalso.
    unfold sub in E. replace (e - p) with 0 in E by lia. cbn [firstn] in E. rewrite encode_cons in E. apply andb_prop in SC as [SC _]. pose proof (encode1_nonempty c0 SC). destruct (encode1 c0); [cbn in *; lia|discriminate].
  - exfalso. destruct G as (z & r & Z & NS & _ & ->). rewrite <- app_assoc in A.
    assert (A2 := A). apply at_adv in A2; [|auto|exists [z]; cbn; rewrite Z, app_nil_r; auto]. destruct A2 as [A2 B2]. apply Bd_skipn in B2 as (y & Y & E). rewrite A2 in E.
    destruct A as [A (c1 & c2 & S1 & S2 & ET & EP)].
    assert (CA : char_at t p z).
    { exists c1, y. split; [rewrite forallb_app, S1; cbn [forallb]; rewrite Z, Y; auto|]. split; [|auto].
      rewrite encode_app, encode_cons, <- E. rewrite <- A, EP, ET, skipn_app, skipn_all, Nat.sub_diag. reflexivity. }
    apply N in CA. rewrite (name_start_start _ _ NS) in CA. discriminate.
Qed.

Lemma end_pieces e : tail_at h (hole c) = Some e -> exists A pad r, lex h = A ++ lex_end (close_name h) pad /\ hole c + length (joined A) = e /\
  good_name U (close_name h) /\ blank pad /\ at_ t e (end_tag (close_name h) pad ++ r) /\ hole c + length (render h) = e + 2 + length (close_name h) + length pad + 1.
Proof.
  intros TE. assert (EL : is_element h) by (destruct h; try discriminate; exact I). destruct (node_of EL) as (n & N & _).
  destruct (at_hole U cs void d HD (fill c h) HG HT c h eq_refl (ex_intro _ n N)) as (post & AT).
  assert (JB : forall l, joined (flat_map lex l) = render_all l) by (intros l; rewrite <- joined_written; apply joined_all).
  pose proof GH as G. destruct h as [| | |name attrs pad' body close pad2|name attrs pad' z pad2| |]; try discriminate; cbn [tail_at head] in TE; apply Some_inj in TE; cbn [render] in AT; rewrite <- !app_assoc in AT; cbn [close_name].
  - inversion G as [| | |? ? ? ? ? ? G1 G1' G1'' G2 G3 G4 _ G5 SC G6| | | |]; subst.
    exists (lex_start name attrs pad' (StartTagClose, bs ">") ++ flat_map lex body), pad2, post.
    split; [cbn [lex]; rewrite <- app_assoc; reflexivity|]. split; [rewrite joined_app, joined_start, JB, app_length; lia|]. split; [auto|]. split; [auto|].
    apply at_adv in AT; auto; [|apply (start_utf8 U); auto; apply ascii_utf8; reflexivity]. apply at_adv in AT; auto.
    2:{ clear - G4. induction G4; [apply u_nil|]. cbn [flat_map]. apply u_app; auto. eapply render_utf8; eauto. }
    split; [exact AT|]. cbn [render]. unfold end_tag. rewrite !app_length. change (length (bs "</")) with 2. change (length (bs ">")) with 1. unfold render_all. lia.
  - assert (GG : good_name U name /\ good_attrs attrs /\ blank pad' /\ Utf8 z /\ blank pad2).
    { inversion G; subst; auto 10 using script_name, style_name. }
    destruct GG as (G1 & G2 & G3 & G4 & G5). exists (lex_start name attrs pad' (StartTagClose, bs ">") ++ [((if beq name (bs "script") then Script else Styles), z)]), pad2, post.
    split; [cbn [lex]; rewrite <- app_assoc; reflexivity|]. split; [rewrite joined_app, joined_start, app_length; cbn [joined flat_map snd]; rewrite app_nil_r; lia|]. split; [auto|]. split; [auto|].
    apply at_adv in AT; auto; [|apply (start_utf8 U); auto; apply ascii_utf8; reflexivity]. apply at_adv in AT; auto. rewrite TE in AT.
    split; [exact AT|]. cbn [render]. unfold end_tag. rewrite !app_length. change (length (bs "</")) with 2. change (length (bs ">")) with 1. lia.
Qed.
(** White space behind the name in an end tag. *)
Lemma end_space l1 k1 k2 l2 : doc_tokens U t cs = Ok (l1 ++ k1 :: k2 :: l2) -> tk_type k1 = EndTag -> tk_type k2 = Whitespace -> tk_state k2 = WithinEndTag.
Proof.
  intros T T1 T2. destruct (doc_step U d cs _ T k1 ltac:(apply in_or_app; cbn; auto)) as (a & b & S & NE & E).
  destruct (doc_next U d cs _ T l1 k1 k2 l2 eq_refl) as (a' & b' & E1 & S' & NE' & E2).
  assert (S1 : st b = WithinEndTag).
  { assert (TB : tok b = EndTag) by (rewrite <- T1, <- E; reflexivity). apply scan_outcome in S; auto. inversion S; subst; cbn in *; try congruence; try (match goal with Q : content_like _ _ |- _ => destruct Q as [Q|[[Q _]|[Q _]]]; congruence end).
    all: try (match goal with Q : tag_outcome _ _ _ _ _ _ |- _ => inversion Q; subst; cbn in *; congruence end). }
  assert (S2 : st a' = WithinEndTag) by (rewrite <- S1; change (tk_state (token_of a') = tk_state (token_of b)); congruence).
  assert (TB : tok b' = Whitespace) by (rewrite <- T2, <- E2; reflexivity). rewrite <- E2. cbn [token_of tk_state]. apply scan_outcome in S'; auto.
  inversion S'; subst; cbn in *; try congruence; try (match goal with Q : content_like _ _ |- _ => destruct Q as [Q|[[Q _]|[Q _]]]; congruence end).
  all: try (match goal with Q : enter_tag _ _ _ |- _ => inversion Q; subst; cbn in *; congruence end).
Qed.

(** ** Pieces with what is before and behind them *)
Lemma split_here A k w B : lex h = A ++ (k, w) :: B -> w <> [] ->
  exists a b l1 tk l2, doc_tokens U t cs = Ok (l1 ++ tk :: l2) /\ length (joined a) = hole c /\ map seen l1 = place 0 (filter written (a ++ A)) /\
    tk_type tk = k /\ tk_off tk = hole c + length (joined A) /\ tk_end tk = hole c + length (joined A) + length w /\
    map seen l2 = place (hole c + length (joined A) + length w) (filter written (B ++ b)).
Proof.
  intros E W. destruct (tokens_placed U cs void d _ HG HT) as (ks & T & P). destruct (lex_fill c) as (a & b & LA & LX). rewrite LX, E in P.
  assert (P' : map seen ks = place 0 (filter written ((a ++ A) ++ (k, w) :: (B ++ b)))) by (rewrite P; f_equal; f_equal; rewrite <- !app_assoc; reflexivity).
  apply place_split in P' as (l1 & tk & l2 & -> & P1 & P2 & P3); [|auto]. rewrite joined_app, app_length, LA in P2, P3.
  unfold seen in P2. apply pair_equal_spec in P2 as [P2 P4]. apply pair_equal_spec in P2 as [P2 P5]. exists a, b, l1, tk, l2. auto 10.
Qed.
(** White space in a start tag. *)
Definition in_tag (k : token_type) : Prop := k = StartTag \/ k = AttributeName \/ k = AttributeValue.
Lemma tag_state l1 k1 l2 : doc_tokens U t cs = Ok (l1 ++ k1 :: l2) -> in_tag (tk_type k1) -> tk_state k1 = WithinTag \/ tk_state k1 = AfterAttributeName.
Proof.
  intros T T1. destruct (doc_step U d cs _ T k1 ltac:(apply in_or_app; cbn; auto)) as (a & b & S & NE & <-). cbn [token_of tk_type tk_state] in *.
  apply scan_outcome in S; auto. unfold in_tag in T1. inversion S; subst; cbn [finish tok st] in *; auto; try (destruct T1 as [T1|[T1|T1]]; congruence).
  match goal with Q : tag_outcome _ _ _ _ _ _ |- _ => inversion Q; subst; cbn [finish tok st] in *; auto; destruct T1 as [T1|[T1|T1]]; congruence end.
Qed.
Lemma tag_space l1 k1 k2 l2 : doc_tokens U t cs = Ok (l1 ++ k1 :: k2 :: l2) -> in_tag (tk_type k1) -> tk_type k2 = Whitespace ->
  tk_state k2 = WithinTag \/ tk_state k2 = AfterAttributeName.
Proof.
  intros T T1 T2. pose proof (tag_state _ _ _ T T1) as S1. destruct (doc_next U d cs _ T l1 k1 k2 l2 eq_refl) as (a' & b' & E1 & S' & NE' & E2).
  rewrite <- E1 in S1. rewrite <- E2 in T2 |- *. cbn [token_of tk_type tk_state] in *. apply scan_outcome in S'; auto.
  inversion S'; subst; cbn [finish tok st] in *; auto; try (destruct S1; congruence).
  match goal with E : enter_tag _ _ _, Q : tag_outcome _ _ _ _ _ _ |- _ => inversion E; subst; inversion Q; subst; cbn [finish tok st set_st set_space reset] in *; auto; congruence end.
Qed.
Lemma space_token A k w' w B : lex h = A ++ (k, w') :: (Whitespace, w) :: B -> w' <> [] -> w <> [] -> in_tag k ->
  exists ks tk, doc_tokens U t cs = Ok ks /\ In tk ks /\ tk_type tk = Whitespace /\ (tk_state tk = WithinTag \/ tk_state tk = AfterAttributeName) /\
    tk_off tk = hole c + length (joined A) + length w' /\ tk_end tk = hole c + length (joined A) + length w' + length w.
Proof.
  intros E W' W K. destruct (split_here (A ++ [(k, w')]) Whitespace w B) as (a & b & l1 & tk & l2 & T & LA & P1 & P2 & P3 & P4 & P5); [rewrite E, <- app_assoc; reflexivity|auto|].
  rewrite joined_app, app_length in P3, P4. cbn [joined flat_map snd] in P3, P4. rewrite app_nil_r in P3, P4.
  rewrite app_assoc in P1. apply place_last in P1 as (l0 & t0 & -> & _ & P1); [|auto]. unfold seen in P1. apply pair_equal_spec in P1 as [P1 _]. apply pair_equal_spec in P1 as [P1 _].
  eexists _, tk. split; [exact T|]. split; [apply in_elt|]. split; [auto|]. split; [|unfold joined in *; lia].
  rewrite <- app_assoc in T. cbn [app] in T. eapply tag_space; eauto. rewrite P1. auto.
Qed.

(** ** Start tags *)
Lemma tag_parts : is_element h -> exists ks b r more post, lex h = lex_start (h_name h) (h_attrs h) (h_pad h) (ks, b :: r) ++ more /\
  head h = start_tag (h_name h) (h_attrs h) (h_pad h) (b :: r) /\ (b = 62%N \/ b = 47%N) /\
  good_name U (h_name h) /\ good_attrs (h_attrs h) /\ blank (h_pad h) /\ at_ t (hole c) (start_tag (h_name h) (h_attrs h) (h_pad h) (b :: r) ++ post).
Proof.
  intros EL. destruct (element_facts U cs void h GH EL) as (lead & more & pad & stop & ks & F). destruct (node_of EL) as (n & N & _).
  destruct (at_hole U cs void d HD (fill c h) HG HT c h eq_refl (ex_intro _ n N)) as (post & A).
  assert (GN := f_name _ _ _ _ _ _ _ F). assert (GA := f_attrs _ _ _ _ _ _ _ F). assert (G := GH). assert (BP : blank (h_pad h)).
  { destruct h; try destruct EL; inversion G; subst; auto. }
  assert (X : exists ks b r more rest, lex h = lex_start (h_name h) (h_attrs h) (h_pad h) (ks, b :: r) ++ more /\
    head h = start_tag (h_name h) (h_attrs h) (h_pad h) (b :: r) /\ (b = 62%N \/ b = 47%N) /\ render h = head h ++ rest).
  { destruct h as [| | |name attrs pad0 body close pad2|name attrs pad0 z pad2|name attrs pad0|name attrs pad0]; try destruct EL;
      [exists StartTagClose, 62%N, []|exists StartTagClose, 62%N, []|exists StartTagClose, 62%N, []|exists StartTagSelfClose, 47%N, [62%N]];
      cbn [lex h_name h_attrs h_pad head render]; eexists _, _; (split; [try reflexivity; rewrite app_nil_r; reflexivity|]); (split; [reflexivity|]); (split; [auto|]);
      try reflexivity; rewrite app_nil_r; reflexivity. }
  destruct X as (ks' & b & r & more' & rest & X1 & X2 & X3 & X4). exists ks', b, r, more', (rest ++ post). rewrite X4, X2, <- app_assoc in A. auto 10.
Qed.
Lemma attr_at l1 a l2 : is_element h -> h_attrs h = l1 ++ a :: l2 -> exists b r, (b = 62%N \/ b = 47%N) /\ Forall good_attr l1 /\ good_attr a /\ Forall good_attr l2 /\ blank (h_pad h) /\
  at_ t (hole c + 1 + length (h_name h) + length (render_attrs l1)) (ha_space a ++ ha_name a ++ render_value (ha_value a) ++ render_attrs l2 ++ h_pad h ++ b :: r).
Proof.
  intros EL E. destruct (tag_parts EL) as (ks & b & r & more & post & _ & _ & B & GN & [GA _] & BP & A). exists b, (r ++ post). split; [auto|].
  rewrite E in GA, A. apply Forall_app in GA as [GA1 GA2]. inversion GA2; subst. split; [auto|]. split; [auto|]. split; [auto|]. split; [auto|].
  unfold start_tag in A. rewrite <- !app_assoc in A. apply at_adv in A; [|auto|apply ascii_utf8; reflexivity]. change (length (bs "<")) with 1 in A.
  apply at_adv in A; [|auto|apply (good_name_utf8 U); auto]. unfold render_attrs in A. rewrite flat_map_app in A. cbn [flat_map] in A. rewrite <- !app_assoc in A.
  apply at_adv in A; [|auto|apply attrs_utf8; auto]. unfold render_attr at 2 in A. rewrite <- !app_assoc in A. exact A.
Qed.
Lemma before_space name l1 : Forall good_attr l1 -> name <> [] -> exists A k w, [(StartTagOpen, bs "<"); (StartTag, name)] ++ flat_map lex_attr l1 = A ++ [(k, w)] /\ w <> [] /\ in_tag k /\
  length (joined A) + length w = 1 + length name + length (render_attrs l1).
Proof.
  intros G NE.
  assert (X : exists A k w, [(StartTagOpen, bs "<"); (StartTag, name)] ++ flat_map lex_attr l1 = A ++ [(k, w)] /\ w <> [] /\ in_tag k).
  { unfold in_tag. destruct l1 as [|a0 l1] using rev_ind.
    - exists [(StartTagOpen, bs "<")], StartTag, name. auto.
    - clear IHl1. apply Forall_app in G as [_ G]. inversion G as [|? ? (_ & _ & G1 & _ & G2)]; subst. rewrite flat_map_app. cbn [flat_map]. rewrite app_nil_r. unfold lex_attr at 2.
      destruct (ha_value a0) as [|gap v|gap q v]; cbn [lex_value].
      + exists ([(StartTagOpen, bs "<"); (StartTag, name)] ++ flat_map lex_attr l1 ++ [(Whitespace, ha_space a0)]), AttributeName, (ha_name a0). rewrite app_nil_r, <- !app_assoc. auto 6.
      + exists ([(StartTagOpen, bs "<"); (StartTag, name)] ++ flat_map lex_attr l1 ++ [(Whitespace, ha_space a0); (AttributeName, ha_name a0); (Whitespace, gap); (DelimiterAssign, bs "=")]), AttributeValue, v.
        rewrite <- !app_assoc. cbn [app]. split; [reflexivity|]. split; [apply G2|auto].
      + exists ([(StartTagOpen, bs "<"); (StartTag, name)] ++ flat_map lex_attr l1 ++ [(Whitespace, ha_space a0); (AttributeName, ha_name a0); (Whitespace, gap); (DelimiterAssign, bs "=")]), AttributeValue, ([q] ++ v ++ [q]).
        rewrite <- !app_assoc. cbn [app]. split; [reflexivity|]. split; [discriminate|auto]. }
  destruct X as (A & k & w & E & W & K). exists A, k, w. split; [auto|]. split; [auto|]. split; [auto|].
  apply (f_equal (fun l => length (joined l))) in E. rewrite !joined_app, joined_attrs, !app_length in E.
  assert (J1 : length (joined [(StartTagOpen, bs "<"); (StartTag, name)]) = 1 + length name) by (cbn [joined flat_map snd]; rewrite app_nil_r; reflexivity).
  assert (J2 : length (joined [(k, w)]) = length w) by (cbn [joined flat_map snd]; rewrite app_nil_r; reflexivity). lia.
Qed.
Lemma place_token x cur s b f : is_element h -> attr_place h (hole c) x cur s b f ->
  hole c < x < hole c + length (head h) /\
  (next_is_eq t b <-> f = true) /\
  exists ks tk, doc_tokens U t cs = Ok ks /\ In tk ks /\ at_attribute_name tk x /\
    (tk_type tk = AttributeName -> tk_off tk = s /\ tk_end tk = b /\ cur = Some (sub t s b)) /\
    (tk_type tk = Whitespace -> s = x /\ b = x /\ cur = None).
Proof.
  intros EL P. destruct (tag_parts EL) as (ks & b0 & r0 & more & post & LX & HH & B0 & GN & [GA _] & BP & _).
  assert (LH : length (head h) = 1 + length (h_name h) + length (render_attrs (h_attrs h)) + length (h_pad h) + length (b0 :: r0)).
  { rewrite HH. unfold start_tag. rewrite !app_length. change (length (bs "<")) with 1. lia. } cbn [length] in LH.
  assert (NN : h_name h <> []) by (apply (good_name_utf8 U); auto).
  assert (IN : forall y e w u z r, at_ t y (w ++ z :: r) -> blank w -> is_ws z = false -> w = u ++ e -> next_is_eq t (y + length u) <-> z = 61%N).
  { intros y e w u z r A BW Z ->. rewrite <- app_assoc in A. assert (blank u /\ blank e) as [BU BE].
    { rewrite !blank_ws in *. split; intros k K; apply BW; apply in_or_app; auto. }
    apply at_adv in A; [|auto|apply blank_utf8; auto]. eapply shape_next; eauto. }
  assert (CUT : forall (w : str) i, i <= length w -> exists u e, w = u ++ e /\ length u = i).
  { intros w i L. exists (firstn i w), (skipn i w). rewrite firstn_skipn, firstn_length. split; [auto|lia]. }
  destruct P as [l1 a l2 E X|l1 a l2 E X|l1 a l2 E X|X].
  - destruct (attr_at l1 a l2 EL E) as (b & r & B & G1 & Ga & G2 & _ & A). assert (Ga' := Ga). destruct Ga' as (Q1 & Q2 & Q3 & Q4 & Q5).
    assert (LR := render_length_attrs l1 a l2). rewrite <- E in LR. unfold name_span in *. cbn [fst snd] in *.
    set (s := hole c + 1 + length (h_name h) + length (render_attrs l1) + length (ha_space a)) in *.
    split; [lia|]. apply at_adv in A; [|auto|apply blank_utf8; auto]. fold s in A.
    assert (ST : sub t s (s + length (ha_name a)) = ha_name a).
    { unfold sub. destruct A as [A _]. rewrite A. replace (s + length (ha_name a) - s) with (length (ha_name a)) by lia. rewrite firstn_app, firstn_all, Nat.sub_diag. cbn. apply app_nil_r. }
    split.
    + apply at_adv in A; [|auto|eapply made_of_utf8; eauto]. destruct (ha_value a) as [|gap v|gap q v]; cbn [render_value app] in A.
      * destruct (tail_shape l2 (h_pad h) b r G2 BP B) as (w & z & r' & E1 & E2 & E3 & E4 & _). rewrite E1 in A. rewrite (shape_next _ _ _ _ _ A E2 E3). split; [congruence|discriminate].
      * rewrite <- !app_assoc in A. change (bs "=" ++ ?u) with (61%N :: u) in A. rewrite (shape_next _ _ _ _ _ A ltac:(apply Q5) eq_refl). tauto.
      * rewrite <- !app_assoc in A. change (bs "=" ++ ?u) with (61%N :: u) in A. rewrite (shape_next _ _ _ _ _ A ltac:(apply Q5) eq_refl). tauto.
    + destruct (token_here AttributeName s (s + length (ha_name a))) as (ks' & tk & T & K & TY & TO & TE).
      { rewrite LX, E, filter_app, place_app. apply in_or_app. left. destruct (attr_pieces (h_name h) l1 a l2 (h_pad h) (ks, b0 :: r0) (hole c) Ga) as [Q _]. exact Q. }
      exists ks', tk. split; [auto|]. split; [auto|]. split; [split; [lia|auto]|]. split; [intros _; rewrite ST; auto|congruence].
  - destruct (attr_at l1 a l2 EL E) as (b & r & B & G1 & Ga & G2 & _ & A). assert (Ga' := Ga). destruct Ga' as (Q1 & Q2 & Q3 & Q4 & Q5).
    assert (LR := render_length_attrs l1 a l2). rewrite <- E in LR. unfold name_span in *. cbn [fst snd] in *.
    set (s := hole c + 1 + length (h_name h) + length (render_attrs l1)) in *.
    split; [lia|]. destruct (attr_first _ Q4 Q3) as (z & r' & Z & Z1 & Z2). split.
    + destruct (CUT (ha_space a) (x - s) ltac:(lia)) as (u & e & E1 & E2). rewrite Z in A. cbn [app] in A. replace x with (s + length u) by lia.
      rewrite (IN s e (ha_space a) u z _ A Q1 Z1 E1). split; [congruence|discriminate].
    + destruct (before_space (h_name h) l1 G1 NN) as (A1 & k & w & A2 & A3 & A4 & A5).
      destruct (space_token A1 k w (ha_space a) ((AttributeName, ha_name a) :: lex_value (ha_value a) ++ flat_map lex_attr l2 ++ [(Whitespace, h_pad h); (ks, b0 :: r0)] ++ more)) as (ks' & tk & T & K & TY & TS & TO & TE); auto.
      { rewrite LX, E. unfold lex_start. rewrite flat_map_app. cbn [flat_map]. unfold lex_attr at 2. transitivity (([(StartTagOpen, bs "<"); (StartTag, h_name h)] ++ flat_map lex_attr l1) ++ (Whitespace, ha_space a) :: (AttributeName, ha_name a) :: lex_value (ha_value a) ++ flat_map lex_attr l2 ++ [(Whitespace, h_pad h); (ks, b0 :: r0)] ++ more);
          [rewrite <- !app_assoc; reflexivity|]. etransitivity; [refine (f_equal (fun l => l ++ _) A2)|rewrite <- app_assoc; reflexivity]. }
      exists ks', tk. split; [auto|]. split; [auto|]. split; [split; [lia|auto]|]. split; [congruence|auto].
  - destruct (attr_at l1 a l2 EL E) as (b & r & B & G1 & Ga & G2 & _ & A). assert (Ga' := Ga). destruct Ga' as (Q1 & Q2 & Q3 & Q4 & Q5).
    assert (LR := render_length_attrs l1 a l2). rewrite <- E in LR. unfold name_span in *. cbn [fst snd] in *.
    assert (V : exists z y, lex_value (ha_value a) = [(Whitespace, gap_of (ha_value a)); (DelimiterAssign, bs "="); (AttributeValue, z)] /\
      render_value (ha_value a) = gap_of (ha_value a) ++ 61%N :: y /\ blank (gap_of (ha_value a))).
    { destruct (ha_value a) as [|gap v|gap q v]; cbn [gap_of length] in X; [lia| |]; cbn [lex_value render_value gap_of]; eexists _, _; (split; [reflexivity|]); (split; [reflexivity|]); apply Q5. }
    destruct V as (z & y & V1 & V2 & V3). rewrite V2, app_length in LR. cbn [length] in LR.
    set (s := hole c + 1 + length (h_name h) + length (render_attrs l1) + length (ha_space a) + length (ha_name a)) in *.
    split; [lia|]. apply at_adv in A; [|auto|apply blank_utf8; auto]. apply at_adv in A; [|auto|eapply made_of_utf8; eauto]. fold s in A. rewrite V2, <- app_assoc in A. cbn [app] in A. split.
    + destruct (CUT (gap_of (ha_value a)) (x - s) ltac:(lia)) as (u & e & E1 & E2). replace x with (s + length u) by lia.
      rewrite (IN s e (gap_of (ha_value a)) u _ _ A V3 eq_refl E1). tauto.
    + destruct (space_token ([(StartTagOpen, bs "<"); (StartTag, h_name h)] ++ flat_map lex_attr l1 ++ [(Whitespace, ha_space a)]) AttributeName (ha_name a) (gap_of (ha_value a))
        ((DelimiterAssign, bs "=") :: (AttributeValue, z) :: flat_map lex_attr l2 ++ [(Whitespace, h_pad h); (ks, b0 :: r0)] ++ more)) as (ks' & tk & T & K & TY & TS & TO & TE); auto.
      { rewrite LX, E. unfold lex_start. rewrite flat_map_app. cbn [flat_map]. unfold lex_attr at 2. rewrite V1, <- !app_assoc. reflexivity. }
      { intros Q. rewrite Q in X. cbn [length] in X. lia. }
      { unfold in_tag. auto. }
      rewrite !joined_app, joined_attrs, !app_length in TO, TE. cbn [joined flat_map snd] in TO, TE. rewrite !app_nil_r, app_length in TO, TE. change (length (bs "<")) with 1 in TO, TE.
      exists ks', tk. split; [auto|]. split; [auto|]. split; [split; [lia|auto]|]. split; [congruence|auto].
  - split; [lia|]. destruct (tag_parts EL) as (ks1 & b1 & r1 & _ & post1 & _ & _ & B1 & _ & _ & _ & A). set (s := hole c + 1 + length (h_name h) + length (render_attrs (h_attrs h))) in *.
    unfold start_tag in A. rewrite <- !app_assoc in A. apply at_adv in A; [|auto|apply ascii_utf8; reflexivity]. change (length (bs "<")) with 1 in A.
    apply at_adv in A; [|auto|apply (good_name_utf8 U); auto]. apply at_adv in A; [|auto|apply attrs_utf8; auto]. fold s in A. split.
    + destruct (CUT (h_pad h) (x - s) ltac:(lia)) as (u & e & E1 & E2). replace x with (s + length u) by lia. cbn [app] in A.
      rewrite (IN s e (h_pad h) u _ _ A BP ltac:(destruct B1 as [-> | ->]; reflexivity) E1). split; [destruct B1; congruence|discriminate].
    + destruct (before_space (h_name h) (h_attrs h) GA NN) as (A1 & k & w & A2 & A3 & A4 & A5).
      destruct (space_token A1 k w (h_pad h) ((ks, b0 :: r0) :: more)) as (ks' & tk & T & K & TY & TS & TO & TE); auto.
      { rewrite LX. unfold lex_start. transitivity (([(StartTagOpen, bs "<"); (StartTag, h_name h)] ++ flat_map lex_attr (h_attrs h)) ++ (Whitespace, h_pad h) :: (ks, b0 :: r0) :: more);
          [rewrite <- !app_assoc; reflexivity|]. etransitivity; [refine (f_equal (fun l => l ++ _) A2)|rewrite <- app_assoc; reflexivity]. }
      { intros Q. rewrite Q in X. cbn [length] in X. lia. }
      exists ks', tk. split; [auto|]. split; [auto|]. split; [split; [lia|auto]|]. split; [congruence|auto].
Qed.
(** The element of the start tag. *)
Lemma names_node h' o n : nodes_from o h' = [n] -> attribute_names n = map ha_name (h_attrs h').
Proof.
  intros N. destruct h'; cbn [nodes_from] in N; try discriminate; apply (f_equal (@hd_error node)), Some_inj in N; subst n; unfold attribute_names; cbn [n_attrs h_attrs]; apply names_from.
Qed.
Lemma tag_node x n : is_element h -> hole c < x < hole c + length (head h) -> start_tag_at roots n x -> n_tag n = Some (h_name h) /\ attribute_names n = map ha_name (h_attrs h).
Proof.
  intros EL L (I & S & M & _). destruct (node_of EL) as (m & N & IM & S1 & S2 & S3 & S4 & S5). pose proof (head_length EL).
  assert (m = n).
  { specialize (M m IM ltac:(lia)). destruct (span U d cs void roots HD parsed n I) as (P1 & _). destruct (span U d cs void roots HD parsed m IM) as (_ & _ & P2). rewrite S3 in P2.
    destruct (lam U d cs void roots HD parsed n m I IM) as [Q|[Q|[Q|[Q|Q]]]]; auto; try lia.
    - exfalso. apply in_flat_map in Q as (k & K1 & K2). assert (NK := node_nested U d cs void roots HD parsed m IM). inversion NK; subst. match goal with FN : Forall _ (n_children m) |- _ => rewrite Forall_forall in FN; pose proof (preorder_bounds k (FN k K1) n K2) end.
      destruct (n_ets m); [destruct P2 as (_ & _ & _ & P2)|destruct P2 as (_ & _ & P2)]; pose proof (chain_bounds _ _ _ _ P2 K1); lia.
    - apply (inside_bounds U d cs void roots HD parsed _ _ I) in Q. lia. }
  subst m. split; [auto|]. eapply names_node; eauto.
Qed.

(** ** The theorems *)
Variables (md : bool) (parts : list completion_participant) (providers : list provider) (lang : str).
Variables (ents : list (str * list N)) (settings : option completion_settings) (order : list (str * str) -> list (str * str)) (p : position).
Notation x := (offset_at d p).
Notation complete := (do_complete U d cs md parts providers lang ents settings order roots p).

(** Behind the '<' of a start tag: the tags of the providers, in place of the name, and the end tag
    of the element around. *)
Theorem C80_bracket : forall items, is_element h -> x = hole c + 1 -> complete = Ok items ->
  let e := hole c + 1 + length (h_name h) in
  exists doctype tags close, items = doctype ++ tags ++ close /\
    (line p = 0 -> exists i, doctype = [i] /\ ci_label i = bs "!DOCTYPE" /\ ci_edit i = Some (range_at d x e, bs "!DOCTYPE html>")) /\
    (line p <> 0 -> doctype = []) /\
    all_tags d providers lang settings x e tags /\
    (forall y s, outer c = Some (y, s) -> exists i, close = [i] /\ PropProposals.closes d x s x e y i) /\
    (outer c = None -> close = []).
Proof.
  intros items EL X C e. destruct (head_text EL) as (pad & stop & post & HH & (b & r & SB & SB') & GN & GA & BP & A & _).
  destruct (token_here StartTagOpen (hole c) (hole c + 1)) as (ks & tk & T & K & TY & TO & TE).
  { destruct (element_facts U cs void h GH EL) as (lead & more & pad' & stop' & ks & F). rewrite (f_lex _ _ _ _ _ _ _ F), (f_lead _ _ _ _ _ _ _ F).
    apply place_in. exists [], (bs "<"). eexists. split; [unfold lex_start; cbn [app]; reflexivity|]. cbn. repeat split; [discriminate|lia]. }
  destruct (C69_open_bracket U d cs void roots ks md parts providers lang ents settings order p tk items HD parsed T K TY ltac:(lia) C)
    as (n & e' & doctype & tags & close & I & NS & NF & IT & D1 & D2 & AT & CL1 & CL2). rewrite X in NF.
  destruct (node_of EL) as (n' & N' & I' & S1 & _ & _ & _ & _). assert (n = n') by (eapply (same_start U d cs void roots HD parsed); auto; lia). subst n'.
  assert (e' = e).
  { subst e. unfold start_tag in A. rewrite <- !app_assoc in A. apply at_adv in A; [|auto|apply ascii_utf8; reflexivity]. change (length (bs "<")) with 1 in A.
    destruct (h_attrs h) as [|a0 as0].
    - cbn [render_attrs flat_map app] in A. destruct pad as [|w pad].
      + subst stop. cbn [app] in A. eapply named; eauto. destruct SB' as [-> | ->]; [right; left; reflexivity|right; right; reflexivity].
      + cbn [app] in A. eapply named; eauto. left. rewrite blank_ws in BP. apply BP. left. reflexivity.
    - cbn [render_attrs flat_map] in A. unfold render_attr in A. destruct GA as [GA _]. inversion GA as [|? ? (G1 & G2 & _)]; subst. destruct (ha_space a0) as [|w sp]; [congruence|].
      cbn [app] in A. rewrite <- ?app_assoc in A. cbn [app] in A. eapply named; eauto. left. rewrite blank_ws in G1. apply G1. left. reflexivity. }
  subst e'. exists doctype, tags, close. split; [auto|]. split; [intros L; destruct (D1 L) as (i & ? & ? & ? & _); eauto|]. split; [auto|]. split; [auto|].
  pose proof (head_length EL). destruct (near_outer x n (inside n) EL N' ltac:(lia)) as [Q1 Q2]; auto. split.
  - intros y s E. destruct (Q1 y s E) as (m & <- & M). apply CL1. auto.
  - intros E. apply CL2. apply Q2. auto.
Qed.

(** In the name: the tags of the providers. *)
Theorem C80_name : is_element h -> hole c + 1 < x <= hole c + 1 + length (h_name h) ->
  exists items, complete = Ok items /\ all_tags d providers lang settings (hole c + 1) (hole c + 1 + length (h_name h)) items.
Proof.
  intros EL X. destruct (token_here StartTag (hole c + 1) (hole c + 1 + length (h_name h))) as (ks & tk & T & K & TY & TO & TE).
  { destruct (element_facts U cs void h GH EL) as (lead & more & pad' & stop' & ks & F). rewrite (f_lex _ _ _ _ _ _ _ F), (f_lead _ _ _ _ _ _ _ F).
    rewrite filter_app, place_app. apply in_or_app. left. apply start_name_piece. intros E. rewrite E in X. cbn in X. lia. }
  destruct (C50_tag_names U d cs void roots ks md parts providers lang ents settings order p tk HD parsed T K TY ltac:(lia)) as (items & C & E).
  exists items. split; [auto|]. rewrite TO, TE in E. exact E.
Qed.

(** Behind the '>' of a start tag: the end tag of the element, unless it has none. *)
Theorem C80_auto_close : forall items, is_element h -> (forall name attrs pad, h <> HSelf name attrs pad) -> x = hole c + length (head h) -> complete = Ok items ->
  let name := h_name h in
  (items <> [] <-> is_void_element name (get_void_elements providers lang) = false /\ forall s, settings = Some s -> cs_hide_auto s = false) /\
  (items <> [] -> exists i, items = [i] /\ ci_label i = bs "</" ++ name ++ bs ">" /\
     ci_edit i = Some (range_at d x x, bs "$0</" ++ name ++ bs ">") /\
     ci_format i = Some FSnippet /\ ci_filter i = Some (bs "</" ++ name ++ bs ">") /\ ci_command i = false).
Proof.
  intros items EL NS X C name.
  assert (P : exists A B, lex h = A ++ (StartTagClose, bs ">") :: B /\ length (joined A) + 1 = length (head h)).
  { destruct h as [| | |name' attrs pad body close pad2|name' attrs pad z pad2|name' attrs pad|name' attrs pad]; try destruct EL; [| | |exfalso; eapply NS; reflexivity];
      exists ([(StartTagOpen, bs "<"); (StartTag, name')] ++ flat_map lex_attr attrs ++ [(Whitespace, pad)]); eexists;
      (split; [cbn [lex]; unfold lex_start; rewrite <- !app_assoc; reflexivity|]);
      cbn [head]; rewrite !joined_app, joined_attrs; unfold start_tag; rewrite !app_length; cbn [joined flat_map snd]; rewrite !app_length; change (length (bs ">")) with 1; cbn [length]; lia. }
  destruct P as (A & B & P & LA).
  destruct (token_here StartTagClose (hole c + length (joined A)) (hole c + length (joined A) + 1)) as (ks & tk & T & K & TY & TO & TE).
  { apply place_in. exists A, (bs ">"), B. split; [auto|]. split; [discriminate|]. auto. }
  destruct (C69_start_tag_end U d cs void roots ks md parts providers lang ents settings order p tk items HD parsed T K TY ltac:(lia) C) as (n & I & S & IT1 & IT2).
  destruct (node_of EL) as (n' & N' & I' & S1 & S2 & S3 & S4 & S5).
  assert (n = n').
  { pose proof (head_length EL). destruct (span U d cs void roots HD parsed n I) as (P1 & P2 & P3). rewrite S in P3.
    assert (P4 : n_start n < x /\ x <= n_end n) by (destruct (n_ets n); lia). clear P3.
    destruct (span U d cs void roots HD parsed n' I') as (R1 & R2 & R3). rewrite S3 in R3.
    assert (CH : forall a b, In a (doc_nodes roots) -> In b (doc_nodes roots) -> forall s, n_ste b = Some s -> inside a b -> s <= n_start a).
    { intros a b IA IB s E IN. destruct (span U d cs void roots HD parsed b IB) as (_ & _ & Q). rewrite E in Q.
      apply in_flat_map in IN as (k & K1 & K2). assert (NK := node_nested U d cs void roots HD parsed b IB). inversion NK; subst. match goal with FN : Forall _ (n_children b) |- _ => rewrite Forall_forall in FN; pose proof (preorder_bounds k (FN k K1) a K2) end.
      destruct (n_ets b); [destruct Q as (_ & _ & _ & Q)|destruct Q as (_ & _ & Q)]; pose proof (chain_bounds _ _ _ _ Q K1); lia. }
    destruct (lam U d cs void roots HD parsed n n' I I') as [Q|[Q|[Q|[Q|Q]]]]; [auto| | |lia|lia].
    - apply (CH n n' I I' _ S3) in Q. lia.
    - apply (CH n' n I' I _ S) in Q. lia. }
  subst n'. split.
  - rewrite IT1. split; [intros (y & Y & V); rewrite S2 in Y; apply Some_inj in Y; subst y; auto|intros V; exists name; split; auto].
  - intros NE. apply (IT2 name S2 NE).
Qed.

(** In the end tag of an element: the end tag of the element around it. *)
Theorem C80_end_tag : forall items e, tail_at h (hole c) = Some e -> e < x <= e + 2 + length (close_name h) -> complete = Ok items ->
  let f := if x =? e + 1 then x else e + 2 + length (close_name h) in
  (forall y s, outer c = Some (y, s) -> exists i, items = [i] /\ PropProposals.closes d x s (e + 1) f y i) /\
  (outer c = None -> all_end_tags md providers lang settings items).
Proof.
  intros items e TE X C f. destruct (end_pieces e TE) as (A & pad & r & LX & LA & GN & BP & AT & LR).
  assert (EL : is_element h) by (destruct h; try discriminate; exact I). destruct (node_of EL) as (n & N & _).
  destruct (found_in_tail x e n TE ltac:(lia) N) as (m & ps & F & P1 & P2).
  destruct (near_outer x n (fun k => k = m \/ inside m k) EL N ltac:(lia) P1 P2) as [Q1 Q2].
  destruct (Nat.le_gt_cases x (e + 2)) as [LE|LE].
  - destruct (token_here EndTagOpen e (e + 2)) as (ks & tk & T & K & TY & TO & TK).
    { apply place_in. exists A, (bs "</"). eexists. split; [rewrite LX; reflexivity|]. split; [discriminate|]. auto. }
    destruct (C69_end_open U d cs void roots ks md parts providers lang ents settings order p tk m ps items HD parsed T K TY ltac:(lia) F C) as (e' & E1 & E2 & R1 & R2).
    assert (e' = f).
    { subst f. destruct (Nat.eqb_spec x (e + 1)) as [Y|Y]; [apply E2; lia|]. assert (XE : x = e + 2) by lia. rewrite XE in E1. specialize (E1 (eq_sym TK)).
      unfold end_tag in AT. rewrite <- !app_assoc in AT. apply at_adv in AT; [|auto|apply ascii_utf8; reflexivity]. change (length (bs "</")) with 2 in AT.
      destruct pad as [|w pad].
      - change (bs ">") with [62%N] in AT. cbn [app] in AT. eapply named; eauto. right. left. reflexivity.
      - cbn [app] in AT. eapply named; eauto. left. rewrite blank_ws in BP. apply BP. left. reflexivity. }
    subst e'. rewrite TO in R1. split; [|intros O; exact (R2 (Q2 O))].
    intros y s O. destruct (Q1 y s O) as (k & <- & Z). apply R1. auto.
  - destruct (token_here EndTag (e + 2) (e + 2 + length (close_name h))) as (ks & tk & T & K & TY & TO & TK).
    { apply place_in. exists (A ++ [(EndTagOpen, bs "</")]), (close_name h). eexists. split; [rewrite LX, <- app_assoc; reflexivity|].
      split; [intros E; rewrite E in X; cbn in X; lia|]. rewrite joined_app, app_length. change (length (joined [(EndTagOpen, bs "</")])) with 2. lia. }
    destruct (C69_end_tag_name U d cs void roots ks md parts providers lang ents settings order p tk m ps items HD parsed T K (or_introl TY) ltac:(lia) F C)
      as (a & e' & LA1 & LT1 & LT2 & WS & E1 & _ & R1 & R2). specialize (E1 TY).
    assert (a = e + 1).
    { destruct (Nat.lt_ge_cases a (e + 1)) as [Q|Q]; [|lia]. exfalso. destruct (WS (e + 1) ltac:(lia)) as (b & B1 & B2).
      unfold end_tag in AT. rewrite <- !app_assoc in AT. change (bs "</") with [60%N; 47%N] in AT. rewrite (at_nth _ _ _ 1 AT) in B1. cbn in B1. apply Some_inj in B1. subst b. discriminate. }
    subst a. assert (e' = f) by (subst f; destruct (Nat.eqb_spec x (e + 1)); lia). rewrite H in R1. split; [|intros O; exact (R2 (Q2 O))].
    intros y s O. destruct (Q1 y s O) as (k & <- & Z). apply R1. auto.
Qed.

(** In text, behind the start of the first element: the references, and what the participants say. *)
Theorem C80_text : forall items s, h = HText s -> hole c < x <= hole c + length s ->
  (exists c' h', fill c h = fill c' h' /\ is_element h' /\ hole c' < x) -> complete = Ok items ->
  exists found, items = flat_map cp_content parts ++ found /\
    ((forall j, ~ reference_at t x j) -> found = []) /\
    (forall j, reference_at t x j -> forall y f doc, In (y, f, doc) (map (fun i => (ci_label i, ci_edit i, ci_doc i)) found) <->
       exists z v, In (z ++ bs ";", v) ents /\ y = bs "&" ++ z ++ bs ";" /\ doc = Some (DocString (bs "Character entity representing '" ++ encode v)) /\
         f = Some (mkRange (mkPos (line p) (character p - (x - j))) p, bs "&" ++ z ++ bs ";")).
Proof.
  intros items s H X (c' & h' & E & EL & B) C. destruct (token_here Content (hole c) (hole c + length s)) as (ks & tk & T & K & TY & TO & TK).
  { apply place_in. exists [], s, []. rewrite H. split; [reflexivity|]. split; [intros ->; cbn in X; lia|]. cbn. auto. }
  destruct (C69_text U d cs void roots ks md parts providers lang ents settings order p tk items HD parsed T K (or_introl TY) ltac:(lia)) as (found & F1 & F2 & F3); auto.
  { assert (HG' := HG). rewrite E in HG'. destruct (element_facts U cs void h' (good_hole U cs void c' h' HG') EL) as (lead & more & pad & stop & kk & F). destruct (f_node _ _ _ _ _ _ _ F (hole c')) as (n & N & N1 & _).
    exists n. rewrite E. split; [apply (hole_node c' h' n 0); auto|lia]. }
  exists found. split; [auto|]. split; [auto|]. intros j J. apply F3. auto.
Qed.

(** In front of the first element, nothing. *)
Theorem C80_front : (forall c' h', fill c h = fill c' h' -> is_element h' -> x <= hole c') -> complete = Ok [].
Proof.
  intros H. destruct (found_total U d cs void roots HD parsed x) as ([[n ps]|] & F); [|apply complete_none; auto]. exfalso.
  destruct (found U d cs void roots HD parsed _ _ _ F) as (_ & IM & LX & _). destruct (from_hole (fill c h) 0 n IM) as (c' & h' & E & N).
  assert (EL : is_element h') by (destruct h'; try discriminate; exact I). specialize (H c' h' E EL).
  assert (HG' := HG). rewrite E in HG'. destruct (element_facts U cs void h' (good_hole U cs void c' h' HG') EL) as (lead & more & pad & stop & kk & F'). destruct (f_node _ _ _ _ _ _ _ F' (hole c')) as (n' & N' & N1 & _).
  cbn [Nat.add] in N. rewrite N in N'. apply (f_equal (@hd_error node)), Some_inj in N'. subst n'. lia.
Qed.

(** Nothing is proposed in comments, doctypes and raw text, behind '/>', and in an end tag behind its name. *)
Definition silent_at (h : html) (o x : nat) : Prop :=
  match h with
  | HComment _ | HDoctype _ _ => o < x <= o + length (render h)
  | HRaw _ _ _ _ _ => exists e, tail_at h o = Some e /\ (o + length (head h) < x <= e \/ e + 2 + length (close_name h) < x <= o + length (render h))
  | HElement _ _ _ _ _ _ => exists e, tail_at h o = Some e /\ e + 2 + length (close_name h) < x <= o + length (render h)
  | HSelf _ _ _ => o + length (head h) - 2 < x <= o + length (head h)
  | HText _ | HVoid _ _ _ => False
  end.
Theorem C80_silent : silent_at h (hole c) x -> complete = Ok [].
Proof.
  intros SI.
  assert (Q : forall A k w B, lex h = A ++ (k, w) :: B -> quiet k -> hole c + length (joined A) < x <= hole c + length (joined A) + length w -> complete = Ok []).
  { intros A k w B E QK L. destruct (token_here k (hole c + length (joined A)) (hole c + length (joined A) + length w)) as (ks & tk & T & K & TY & TO & TK).
    { apply place_in. exists A, w, B. split; [auto|]. split; [intros ->; cbn in L; lia|]. auto. }
    apply (C69_silent U d cs void roots ks md parts providers lang ents settings order p tk HD parsed T K); [rewrite TY; auto|lia]. }
  assert (TAIL : forall e, tail_at h (hole c) = Some e -> e + 2 + length (close_name h) < x <= hole c + length (render h) -> complete = Ok []).
  { intros e TE L. destruct (end_pieces e TE) as (A & pad & r & LX & LA & GN & BP & AT & LR).
    destruct (Nat.le_gt_cases x (e + 2 + length (close_name h) + length pad)) as [LE|LE].
    - destruct (tokens_placed U cs void d _ HG HT) as (ks & T & P). destruct (lex_fill c) as (a & b & LA' & E). rewrite E, LX in P. unfold lex_end in P.
      replace (a ++ (A ++ [(EndTagOpen, bs "</"); (EndTag, close_name h); (Whitespace, pad); (EndTagClose, bs ">")]) ++ b)
        with (((a ++ A ++ [(EndTagOpen, bs "</")]) ++ [(EndTag, close_name h)]) ++ (Whitespace, pad) :: (EndTagClose, bs ">") :: b) in P by (rewrite <- !app_assoc; reflexivity).
      apply place_split in P as (l1 & tk & l2 & -> & P1 & P2 & P3); [|intros ->; cbn in LE; lia].
      apply place_last in P1 as (l0 & tn & -> & P0 & P1); [|destruct GN as (z & r0 & SZ & _ & _ & ->); pose proof (encode1_nonempty z SZ); destruct (encode1 z); [cbn in *; lia|discriminate]].
      unfold seen in P1, P2. apply pair_equal_spec in P1 as [P1 TE1]. apply pair_equal_spec in P1 as [TY1 TO1]. apply pair_equal_spec in P2 as [P2 TE2]. apply pair_equal_spec in P2 as [TY2 TO2].
      rewrite !joined_app, !app_length in TO2, TE2. cbn [joined flat_map snd] in TO2, TE2. rewrite !app_nil_r in TO2, TE2. change (length (bs "</")) with 2 in TO2, TE2.
      rewrite <- app_assoc in T. cbn [app] in T.
      pose proof (end_space l0 tn tk l2 T TY1 TY2) as ST.
      destruct (found_total U d cs void roots HD parsed x) as ([[n ps]|] & F); [|apply complete_none; auto].
      replace (l0 ++ tn :: tk :: l2) with ((l0 ++ [tn]) ++ tk :: l2) in T by (rewrite <- app_assoc; reflexivity).
      destruct (PropComplete.complete_at U d cs void roots _ HD parsed T md parts providers lang ents settings order p n ps (l0 ++ [tn]) tk l2 F eq_refl) as (pre & mid & m & z & sc & X1 & R & M & S & NE & TK & _ & _ & ->).
      { lia. }
      assert (TT : tok sc = tk_type tk) by (rewrite <- TK; reflexivity). assert (SS : st sc = tk_state tk) by (rewrite <- TK; reflexivity).
      unfold complete_step. cbn zeta. rewrite TT, TY2, SS, ST. unfold answer. destruct (_ <=? pos sc); reflexivity.
    - apply (Q (A ++ [(EndTagOpen, bs "</"); (EndTag, close_name h); (Whitespace, pad)]) EndTagClose (bs ">") []); [rewrite LX, <- app_assoc; reflexivity|exact I|].
      rewrite joined_app, app_length. cbn [joined flat_map snd]. rewrite app_nil_r, !app_length. change (length (bs "</")) with 2. change (length (bs ">")) with 1. lia. }
  assert (J1 : forall k (w : str), length (joined [(k, w)]) = length w) by (intros k w; cbn [joined flat_map snd]; rewrite app_nil_r; auto).
  destruct h as [z|z|w z|name attrs pad body close pad2|name attrs pad z pad2|name attrs pad|name attrs pad] eqn:EH; cbn [silent_at] in SI; try contradiction.
  - cbn [render] in SI. rewrite !app_length in SI. change (length (bs "<!--")) with 4 in SI. change (length (bs "-->")) with 3 in SI. destruct (Nat.le_gt_cases x (hole c + 4)).
    + apply (Q [] StartCommentTag (bs "<!--") [(Comment, z); (EndCommentTag, bs "-->")]); [reflexivity|exact I|]. change (length (bs "<!--")) with 4. cbn. lia.
    + destruct (Nat.le_gt_cases x (hole c + 4 + length z)).
      * apply (Q [(StartCommentTag, bs "<!--")] Comment z [(EndCommentTag, bs "-->")]); [reflexivity|exact I|]. rewrite J1. change (length (bs "<!--")) with 4. lia.
      * apply (Q [(StartCommentTag, bs "<!--"); (Comment, z)] EndCommentTag (bs "-->") []); [reflexivity|exact I|].
        cbn [joined flat_map snd]. rewrite app_nil_r, !app_length. change (length (bs "<!--")) with 4. change (length (bs "-->")) with 3. lia.
  - cbn [render] in SI. rewrite !app_length in SI. change (length (bs "<!")) with 2 in SI. change (length (bs ">")) with 1 in SI. destruct (Nat.le_gt_cases x (hole c + 2 + length w)).
    + apply (Q [] StartDoctypeTag (bs "<!" ++ w) [(Doctype, z); (EndDoctypeTag, bs ">")]); [reflexivity|exact I|]. rewrite app_length. change (length (bs "<!")) with 2. cbn [joined flat_map length]. lia.
    + destruct (Nat.le_gt_cases x (hole c + 2 + length w + length z)).
      * apply (Q [(StartDoctypeTag, bs "<!" ++ w)] Doctype z [(EndDoctypeTag, bs ">")]); [reflexivity|exact I|]. rewrite J1, app_length. change (length (bs "<!")) with 2. lia.
      * apply (Q [(StartDoctypeTag, bs "<!" ++ w); (Doctype, z)] EndDoctypeTag (bs ">") []); [reflexivity|exact I|].
        cbn [joined flat_map snd]. rewrite app_nil_r, !app_length. change (length (bs "<!")) with 2. change (length (bs ">")) with 1. lia.
  - destruct SI as (e & TE & L). eapply TAIL; eauto.
  - destruct SI as (e & TE & [L|L]); [|eapply TAIL; eauto].
    apply (Q (lex_start name attrs pad (StartTagClose, bs ">")) (if beq name (bs "script") then Script else Styles) z (lex_end name pad2)); [reflexivity|destruct (beq name (bs "script")); exact I|].
    rewrite joined_start. cbn [tail_at head] in *. apply Some_inj in TE. lia.
  - apply (Q ([(StartTagOpen, bs "<"); (StartTag, name)] ++ flat_map lex_attr attrs ++ [(Whitespace, pad)]) StartTagSelfClose (bs "/>") []); [cbn [lex]; unfold lex_start; rewrite <- !app_assoc; reflexivity|exact I|].
    cbn [head] in SI. unfold start_tag in SI. rewrite !joined_app, joined_attrs, !app_length. rewrite !app_length in SI. cbn [joined flat_map snd]. rewrite !app_nil_r, !app_length. change (length (bs "<")) with 1 in *. change (length (bs "/>")) with 2 in *. lia.
Qed.

(** Where the name of an attribute is or can be: the names the providers have for the element, but those
    of its other attributes, and the names that begin with data- in the whole document. *)
Theorem C80_attribute : forall items cur s b f, (forall m, Permutation (order m) m) -> is_element h ->
  attr_place h (hole c) x cur s b f -> complete = Ok items ->
  let labels := map ci_label items in let others := map ha_name (h_attrs h) in
  (forall y, In y labels <->
     y = bs "data-" \/
     (proposes providers lang settings (Some (h_name h)) y /\ (~ In y others \/ cur = Some y)) \/
     (is_prefix (bs "data-") y = true /\ ~ In y others /\ exists c' h', fill c h = fill c' h' /\ In y (map ha_name (h_attrs h')))) /\
  NoDup (filter (fun y => negb (beq y (bs "data-"))) labels).
Proof.
  intros items cur s b f PO EL P C labels others. destruct (place_token x cur s b f EL P) as (L & _ & ks & tk & T & K & AN & A1 & A2).
  destruct (C42_attribute_names U d cs void roots ks md parts providers lang ents settings order p tk items HD parsed T PO K AN C) as (n & SA & LB & ND & _).
  destruct (tag_node x n EL L SA) as [TN AN']. rewrite TN, AN' in LB. split; [|exact ND].
  intros y. subst labels. rewrite LB. clear LB. fold others.
  assert (CUR : (tk_type tk = AttributeName /\ sub t (tk_off tk) (tk_end tk) = y) <-> cur = Some y).
  { split.
    - intros [TY E]. destruct (A1 TY) as (E1 & E2 & ->). rewrite <- E, E1, E2. reflexivity.
    - intros E. destruct AN as [_ [TY|[TY _]]].
      + destruct (A1 TY) as (E1 & E2 & E3). split; [auto|]. rewrite E3 in E. apply Some_inj in E. rewrite E1, E2. auto.
      + destruct (A2 TY) as (_ & _ & E3). congruence. }
  rewrite CUR.
  assert (ALL : (exists m, In m (doc_nodes roots) /\ In y (attribute_names m)) <-> (exists c' h', fill c h = fill c' h' /\ In y (map ha_name (h_attrs h')))).
  { split.
    - intros (m & M & Y). destruct (from_hole _ 0 m M) as (c' & h' & E & N). exists c', h'. split; [auto|]. rewrite <- (names_node _ _ _ N). auto.
    - intros (c' & h' & E & Y). assert (N : exists m, nodes_from (hole c') h' = [m]).
      { destruct h'; try destruct Y; eexists; reflexivity. }
      destruct N as (m & N). exists m. split; [rewrite E; apply (hole_node c' h' m 0); auto|]. rewrite (names_node _ _ _ N). auto. }
  rewrite ALL. reflexivity.
Qed.
(** What they write: the name and, unless there is a '=' or the attribute takes no value, a place for the
    value in the quotes of the settings. *)
Theorem C80_attribute_edits : forall items cur s b f, (forall m, Permutation (order m) m) -> is_element h ->
  attr_place h (hole c) x cur s b f -> complete = Ok items ->
  let value := if f then [] else match settings with
    | Some z => match cs_quotes z with QNone => bs "=$1" | QSingle => bs "='$1'" | QDouble => bs "=""$1""" end
    | None => bs "=""$1"""
    end in
  exists e named data, items = named ++ data /\
    x <= e <= b /\ (forall j, x <= j < e -> exists z, nth_error t j = Some z /\ z <> LT /\ (z < 128)%N) /\
    (e = b \/ exists z, nth_error t e = Some z /\ (z = LT \/ (128 <= z)%N)) /\
    (forall i, In i named -> exists q y, in_use providers lang settings q /\ In y (pv_attributes q (h_name h)) /\ ci_label i = a_name y /\
       exists v, (a_set y = Some (bs "v") -> v = []) /\ (a_set y <> Some (bs "v") -> v = value) /\
       ci_edit i = Some (range_at d s e, a_name y ++ v) /\ ci_format i = Some FSnippet /\
       ci_doc i = as_doc (generate_documentation (a_desc y) (a_refs y) true true md)) /\
    (forall i, In i data -> is_prefix (bs "data-") (ci_label i) = true /\ exists w,
       (ci_label i = bs "data-" -> w = bs "data-$1=""$2""") /\ (ci_label i <> bs "data-" -> w = ci_label i ++ bs "=""$1""") /\
       i = mkItem (ci_label i) (Some KValue) None None (Some (range_at d s e, w)) (Some FSnippet) false).
Proof.
  intros items cur s b f PO EL P C value. destruct (place_token x cur s b f EL P) as (L & NE & ks & tk & T & K & AN & A1 & A2).
  destruct (C69_attribute_edits U d cs void roots ks md parts providers lang ents settings order p tk items HD parsed T PO K AN C)
    as (n & a & e & behind & v & named & data & SA & IT & N1 & N2 & V1 & V2 & D1 & D2).
  destruct (tag_node x n EL L SA) as [TN _].
  assert (X : a = s /\ behind = b /\ x <= e <= b /\ (forall j, x <= j < e -> exists z, nth_error t j = Some z /\ z <> LT /\ (z < 128)%N) /\
    (e = b \/ exists z, nth_error t e = Some z /\ (z = LT \/ (128 <= z)%N))).
  { destruct AN as [L1 [TY|[TY _]]].
    - destruct (N1 TY) as (-> & -> & E1 & E2 & E3). destruct (A1 TY) as (O1 & O2 & _). rewrite O2 in E1, E3. split; [auto|]. split; [auto|]. split; [lia|]. split; [exact E2|exact E3].
    - destruct (N2 TY) as (-> & -> & ->). destruct (A2 TY) as (-> & -> & _). split; [auto|]. split; [auto|]. split; [lia|]. split; [intros; lia|auto]. }
  destruct X as (-> & -> & X1 & X2 & X3).
  assert (VV : v = value) by (subst value; destruct f; [apply V1; apply NE; auto|apply V2; intros Q; apply NE in Q; discriminate]). clearbody value. subst v.
  exists e, named, data. split; [auto|]. split; [auto|]. split; [auto|]. split; [auto|]. split; [|auto].
  intros i I. destruct (D1 i I) as (q & x0 & y & Q1 & Q2 & Q3 & Q4 & w & Q5 & Q6 & Q7 & Q8 & _ & _ & Q9). rewrite TN in Q2. apply Some_inj in Q2. subst x0.
  exists q, y. split; [auto|]. split; [auto|]. split; [auto|]. exists w. auto.
Qed.

(** On the value of an attribute, or right behind the '=': the values of the attribute. *)
Theorem C80_value : forall items l1 a l2 s e, is_element h -> h_attrs h = l1 ++ a :: l2 -> value_span h (hole c) l1 a = Some (s, e) ->
  s <= x <= e -> complete = Ok items ->
  let quoted := s < x /\ exists gap q v, ha_value a = Quoted gap q v in
  let norm y := if cs then y else lower U y in
  exists from values va ve prefix, items = from ++ values /\
    (~ quoted -> va = s /\ ve = e /\ prefix = sub t s x) /\
    (quoted -> word_around t (s + 1) (e - 1) x va ve /\ prefix = if x <? e - 1 then sub t (s + 1) x else []) /\
    from = flat_map (fun q => cp_value q (norm (h_name h)) (norm (ha_name a)) prefix (range_at d s e)) parts /\
    (forall y, In y (map ci_label values) <-> exists q v, in_use providers lang settings q /\ In v (pv_values q (h_name h) (ha_name a)) /\ y = v_name v) /\
    (forall i, In i values -> exists q v, in_use providers lang settings q /\ In v (pv_values q (h_name h) (ha_name a)) /\ ci_label i = v_name v /\
       (quoted -> ci_edit i = Some (range_at d va ve, v_name v)) /\
       (~ quoted -> ci_edit i = Some (range_at d va ve, bs """" ++ v_name v ++ bs """")) /\
       ci_format i = Some FPlain /\ ci_command i = false /\
       ci_doc i = as_doc (generate_documentation (v_desc v) (v_refs v) true true md)).
Proof.
  intros items l1 a l2 s e EL E VS X C quoted norm.
  destruct (tag_parts EL) as (kt & b0 & r0 & more & post & LX & HH & B0 & GN & _ & BP & _).
  destruct (attr_at l1 a l2 EL E) as (b & r & B & G1 & Ga & G2 & _ & AT). assert (Ga' := Ga). destruct Ga' as (Q1 & Q2 & Q3 & Q4 & Q5).
  destruct (value_piece _ _ _ _ _ VS) as (w & z & V1 & V2 & V3). apply pair_equal_spec in V2 as [V2 V2']. destruct (V3 Ga) as [ZN _]. clear V3.
  unfold name_span in V2, V2'. cbn [snd] in V2, V2'.
  assert (LR := render_length_attrs l1 a l2). rewrite <- E in LR.
  assert (RV : render_value (ha_value a) = w ++ bs "=" ++ z /\ blank w /\ Utf8 z).
  { destruct (ha_value a) as [|gap v|gap q v]; cbn [lex_value] in V1; [discriminate| |]; injection V1 as -> <-; cbn [render_value]; (split; [rewrite <- ?app_assoc; reflexivity|]); (split; [apply Q5|]).
    - eapply made_of_utf8. apply Q5.
    - destruct Q5 as (_ & Q5 & U1 & _). assert (UQ : Utf8 [q]) by (apply u_one; destruct Q5 as [-> | ->]; reflexivity). apply (u_app [q]); [auto|]. apply u_app; auto. }
  destruct RV as (RV & BW & UZ). rewrite RV, !app_length in LR. change (length (bs "=")) with 1 in LR.
  assert (LH : length (head h) = 1 + length (h_name h) + length (render_attrs (h_attrs h)) + length (h_pad h) + length (b0 :: r0)).
  { rewrite HH. unfold start_tag. rewrite !app_length. change (length (bs "<")) with 1. lia. } cbn [length] in LH.
  apply at_adv in AT; [|auto|apply blank_utf8; auto]. apply at_adv in AT; [|auto|eapply made_of_utf8; eauto]. rewrite RV, <- !app_assoc in AT.
  apply at_adv in AT; [|auto|apply blank_utf8; auto]. apply at_adv in AT; [|auto|apply ascii_utf8; reflexivity]. change (length (bs "=")) with 1 in AT.
  replace (hole c + 1 + length (h_name h) + length (render_attrs l1) + length (ha_space a) + length (ha_name a) + length w + 1) with s in AT by lia.
  (* the tokens *)
  destruct (split_here ([(StartTagOpen, bs "<"); (StartTag, h_name h)] ++ flat_map lex_attr l1 ++ [(Whitespace, ha_space a)]) AttributeName (ha_name a)
    ((Whitespace, w) :: (DelimiterAssign, bs "=") :: (AttributeValue, z) :: flat_map lex_attr l2 ++ [(Whitespace, h_pad h); (kt, b0 :: r0)] ++ more)) as (a1 & b1 & t1 & ka & t2 & T & LA & P1 & KT & KO & KE & P2); [|auto|].
  { rewrite LX, E. unfold lex_start. rewrite flat_map_app. cbn [flat_map]. unfold lex_attr at 2. rewrite V1, <- !app_assoc. reflexivity. }
  rewrite !joined_app, joined_attrs, !app_length in KO, KE, P2. cbn [joined flat_map snd] in KO, KE, P2. rewrite !app_nil_r, app_length in KO, KE, P2. change (length (bs "<")) with 1 in KO, KE, P2.
  match type of P2 with _ = place ?n _ => set (o1 := n) in P2 end. assert (O1 : o1 = s - 1 - length w) by (subst o1; lia).
  assert (X2 : exists m0 kd kv t3, t2 = m0 ++ kd :: kv :: t3 /\ Forall (fun k => tk_type k = Whitespace \/ tk_type k = DelimiterAssign) m0 /\
    tk_type kd = DelimiterAssign /\ tk_off kd = s - 1 /\ tk_end kd = s /\ tk_type kv = AttributeValue /\ tk_off kv = s /\ tk_end kv = e).
  { change (((Whitespace, w) :: (DelimiterAssign, bs "=") :: (AttributeValue, z) :: flat_map lex_attr l2 ++ [(Whitespace, h_pad h); (kt, b0 :: r0)] ++ more) ++ b1)
      with ([(Whitespace, w)] ++ [(DelimiterAssign, bs "=")] ++ [(AttributeValue, z)] ++ ((flat_map lex_attr l2 ++ [(Whitespace, h_pad h); (kt, b0 :: r0)] ++ more) ++ b1)) in P2.
    rewrite !filter_app, !place_app, !joined_written in P2.
    replace (filter written [(DelimiterAssign, bs "=")]) with [(DelimiterAssign, bs "=")] in P2 by reflexivity.
    assert (FZ : filter written [(AttributeValue, z)] = [(AttributeValue, z)]) by (destruct z; [congruence|reflexivity]).
    match type of P2 with context [filter written [(AttributeValue, ?z')]] => change (filter written [(AttributeValue, z')]) with (filter written [(AttributeValue, z)]) in P2 end. rewrite FZ in P2. cbn [place] in P2.
    assert (JW : length (joined [(Whitespace, w)]) = length w) by (cbn [joined flat_map snd]; rewrite app_nil_r; reflexivity). rewrite JW in P2.
    change (length (joined [(DelimiterAssign, bs "=")])) with 1 in P2. change (length (bs "=")) with 1 in P2.
    apply map_eq_app in P2 as (m0 & m1 & -> & M0 & P2). cbn [app] in P2. apply map_eq_cons in P2 as (kd & m2 & -> & M1 & P2). apply map_eq_cons in P2 as (kv & m3 & -> & M2 & _).
    unfold seen in M1, M2. apply pair_equal_spec in M1 as [M1 M1e]. apply pair_equal_spec in M1 as [M1 M1o]. apply pair_equal_spec in M2 as [M2 M2e]. apply pair_equal_spec in M2 as [M2 M2o].
    exists m0, kd, kv, m3. split; [auto|]. split.
    - destruct w as [|w0 w]; cbn [filter written snd place map] in M0.
      + destruct m0; [constructor|discriminate].
      + apply map_eq_cons in M0 as (k0 & m4 & -> & M0 & M4). destruct m4; [|discriminate]. constructor; [|constructor]. left. unfold seen in M0. apply pair_equal_spec in M0 as [M0 _]. apply pair_equal_spec in M0 as [M0 _]. auto.
    - change (length (bs "=")) with 1 in M1e. repeat (split; [auto; lia|]). lia. }
  destruct X2 as (m0 & kd & kv & t3 & -> & F0 & KD & KDO & KDE & KV & KVO & KVE).
  assert (VF : value_from t s e).
  { replace (t1 ++ ka :: m0 ++ kd :: kv :: t3) with ((t1 ++ ka :: m0) ++ kd :: kv :: t3) in T by (rewrite <- app_assoc; reflexivity).
    destruct (doc_step U d cs _ T kd ltac:(apply in_or_app; cbn; auto)) as (u1 & u2 & S & _ & ED). destruct (doc_next U d cs _ T _ _ _ _ eq_refl) as (u3 & u4 & E3 & S4 & _ & E4).
    assert (ST : st u3 = BeforeAttributeValue).
    { assert (S2 : st u2 = BeforeAttributeValue).
      { assert (TB : tok u2 = DelimiterAssign) by (rewrite <- KD, <- ED; reflexivity). apply scan_outcome in S; auto. inversion S; subst; cbn [finish tok st] in *; try congruence.
        match goal with Q : tag_outcome _ _ _ _ _ _ |- _ => inversion Q; subst; cbn [finish tok st] in *; congruence end. }
      rewrite <- S2. change (tk_state (token_of u3) = tk_state (token_of u2)). congruence. }
    assert (TB : tok u4 = AttributeValue) by (rewrite <- KV, <- E4; reflexivity). assert (PO : pos u3 = s) by (rewrite <- KDE, <- E3; reflexivity). assert (PE : pos u4 = e) by (rewrite <- KVE, <- E4; reflexivity).
    apply scan_outcome in S4; auto. clear X VS V2 V2' O1 KO KE KDO KDE KVO KVE. inversion S4; subst; cbn [finish tok st pos] in *; try congruence.
    - match goal with Q : tag_outcome _ _ _ _ _ _ |- _ => inversion Q; subst; cbn [finish tok st] in *; congruence end.
    - left. match goal with Q : ScannerFacts.plain_value _ _ _ |- _ => exact Q end.
    - right. left. match goal with Q : ScannerFacts.quoted_value _ _ _ |- _ => exact Q end. }
  assert (NT : sub t (tk_off ka) (tk_end ka) = ha_name a).
  { destruct (attr_at l1 a l2 EL E) as (b9 & r9 & _ & _ & _ & _ & _ & A9). apply at_adv in A9; [|auto|apply blank_utf8; auto]. destruct A9 as [A9 _]. unfold sub. rewrite KE, KO.
    replace (hole c + (1 + length (h_name h) + (length (render_attrs l1) + length (ha_space a)))) with (hole c + 1 + length (h_name h) + length (render_attrs l1) + length (ha_space a)) by lia.
    rewrite A9. replace (_ + length (ha_name a) - _) with (length (ha_name a)) by lia. rewrite firstn_app, firstn_all, Nat.sub_diag. cbn. apply app_nil_r. }
  assert (K : exists m1 k m2, t1 ++ ka :: m0 ++ kd :: kv :: t3 = m1 ++ k :: m2 /\ (tk_type k = AttributeValue \/ tk_type k = DelimiterAssign) /\ tk_off k < x <= tk_end k /\ value_name m1 ka /\
    (tk_type k = AttributeValue -> s < x /\ tk_off k = s /\ tk_end k = e) /\ (tk_type k = DelimiterAssign -> x = s)).
  { destruct (Nat.eq_dec x s) as [XS|XS].
    - exists (t1 ++ ka :: m0), kd, (kv :: t3). split; [rewrite <- app_assoc; reflexivity|]. split; [auto|]. split; [lia|]. split; [exists t1, m0; auto|]. split; [congruence|auto].
    - exists (t1 ++ ka :: m0 ++ [kd]), kv, t3. split; [rewrite <- !app_assoc; cbn [app]; rewrite <- app_assoc; reflexivity|]. split; [auto|]. split; [lia|]. split; [|split; [intros _; lia|congruence]].
      exists t1, (m0 ++ [kd]). split; [reflexivity|]. split; [auto|]. apply Forall_app. split; [auto|]. constructor; auto. }
  destruct K as (m1 & k & m2 & EK & TY & LK & VN & K1 & K2). rewrite EK in T.
  destruct (C51_value_edits U d cs void roots m1 k m2 md parts providers lang ents settings order p items HD parsed T TY LK C)
    as (n2 & y2 & ka2 & from2 & values2 & wa & we & va & ve & prefix & SA2 & TN2 & VN2 & IT2 & W1 & W2 & D1 & D2 & FR & LB & D3).
  assert (LX' : hole c < x < hole c + length (head h)) by lia.
  destruct (tag_node x n2 EL LX' SA2) as [Y2 _]. rewrite TN2 in Y2. apply Some_inj in Y2. subst y2.
  pose proof (value_name_unique _ _ _ VN VN2) as <-. rewrite NT in LB, FR, D3.
  assert (NTS : nth_error t s = nth_error z 0).
  { destruct AT as [AT _]. rewrite <- (Nat.add_0_r s), <- skipn_nth_error, AT. destruct z; [congruence|reflexivity]. }
  assert (QE : (tk_type k = AttributeValue /\ exists c, nth_error t (tk_off k) = Some c /\ (c = 34%N \/ c = 39%N)) <-> quoted).
  { split.
    - intros [TK (q & N0 & Q)]. destruct (K1 TK) as (LX2 & O2 & _). split; [auto|]. rewrite O2, NTS in N0. destruct (ha_value a) as [|gap v|gap q' v] eqn:VA; [discriminate| |eauto].
      exfalso. cbn [lex_value] in V1. injection V1 as -> <-. destruct Q5 as (_ & _ & M). destruct v as [|v0 v]; [discriminate|]. cbn in N0. apply Some_inj in N0. subst v0.
      assert (I : In q (q :: v)) by (cbn; auto). destruct M as (k0 & EM & M). rewrite EM in I. apply encode_byte in I.
      + destruct (M q I) as (_ & _ & NC). apply NC. destruct Q as [-> | ->]; cbn; auto.
      + apply forallb_forall. intros y Y. apply M. auto.
      + destruct Q; subst; lia.
    - intros [LX2 (gap & q & v & VA)]. destruct TY as [TY|TY]; [|apply K2 in TY; lia]. split; [auto|]. destruct (K1 TY) as (_ & O2 & _). exists q. rewrite O2, NTS.
      rewrite VA in V1, Q5. cbn [lex_value] in V1. injection V1 as _ <-. split; [reflexivity|apply Q5]. }
  assert (WE : wa = s /\ we = e).
  { destruct TY as [TY|TY].
    - destruct (W1 TY) as [-> ->]. destruct (K1 TY) as (_ & -> & ->). auto.
    - destruct (W2 TY) as [-> W3]. rewrite (K2 TY) in *. split; [auto|]. exact (value_from_unique _ _ _ _ W3 VF). }
  destruct WE as [-> ->]. cbv zeta in D1, D2, D3.
  exists from2, values2, va, ve, prefix. split; [auto|]. split; [rewrite <- QE; exact D2|]. split; [|split; [exact FR|split]].
  - intros Q. assert (Q' := Q). rewrite <- QE in Q'. destruct (D1 Q') as (hi & H1 & _ & WA & H3 & H4). destruct Q' as [TK _]. destruct (K1 TK) as (_ & O2 & O3). rewrite O2, O3 in *.
    destruct Q as [_ (gap & q & v & VA)]. rewrite VA in V1. cbn [lex_value] in V1. injection V1 as _ EZ.
    assert (HI : hi = e - 1).
    { apply H1. rewrite NTS. destruct AT as [AT _]. replace (e - 1) with (s + (length z - 1)) by (destruct z; [congruence|cbn [length] in *; lia]).
      rewrite <- skipn_nth_error, AT, <- EZ. cbn [app length nth_error]. rewrite !app_length. cbn [length]. replace (S (length v + 1) - 1) with (S (length v)) by lia. cbn [nth_error].
      rewrite nth_error_app1 by (rewrite app_length; cbn; lia). rewrite nth_error_app2, Nat.sub_diag by lia. reflexivity. }
    subst hi. split; [exact WA|]. destruct (x <? e - 1) eqn:XE; [apply H3; apply Nat.ltb_lt; auto|apply H4; apply Nat.ltb_ge; auto].
  - exact LB.
  - intros i I. destruct (D3 i I) as (q & v & R1 & R2 & R3 & R4 & R5 & R6 & _ & R7 & R8). rewrite QE in R4, R5. exists q, v. repeat (split; [assumption|]). assumption.
Qed.
End Complete.

(** ** These are all the places *)
Inductive proposal_place (h : html) (o x : nat) : Prop :=
| At_bracket : is_element h -> x = o + 1 -> proposal_place h o x
| At_name : is_element h -> o + 1 < x <= o + 1 + length (h_name h) -> proposal_place h o x
| At_attribute cur s b f : is_element h -> attr_place h o x cur s b f -> proposal_place h o x
| At_value l1 a l2 s e : is_element h -> h_attrs h = l1 ++ a :: l2 -> value_span h o l1 a = Some (s, e) -> s <= x <= e -> proposal_place h o x
| At_close : is_element h -> (forall name attrs pad, h <> HSelf name attrs pad) -> x = o + length (head h) -> proposal_place h o x
| At_end e : tail_at h o = Some e -> e < x <= e + 2 + length (close_name h) -> proposal_place h o x
| At_text s : h = HText s -> o < x <= o + length s -> proposal_place h o x
| At_silent : silent_at h o x -> proposal_place h o x.

Lemma in_attrs h o x : forall l2 l1, h_attrs h = l1 ++ l2 -> is_element h ->
  o + 1 + length (h_name h) + length (render_attrs l1) < x <= o + 1 + length (h_name h) + length (render_attrs (l1 ++ l2)) -> proposal_place h o x.
Proof.
  induction l2 as [|a l2 IH]; intros l1 E EL L.
  - rewrite app_nil_r in L. lia.
  - rewrite render_length_attrs in L.
    assert (ST : length (render_attrs (l1 ++ [a])) = length (render_attrs l1) + length (ha_space a) + length (ha_name a) + length (render_value (ha_value a))).
    { pose proof (render_length_attrs l1 a []) as R. cbn [render_attrs flat_map length] in R. unfold render_attrs in *. cbn [flat_map length] in R. lia. }
    destruct (Nat.le_gt_cases x (o + 1 + length (h_name h) + length (render_attrs (l1 ++ [a])))) as [LE|GT].
    + clear IH. rewrite ST in LE. destruct (Nat.le_gt_cases x (fst (name_span h o l1 a))) as [L1|L1].
      { eapply At_attribute; [auto|]. eapply P_space; [exact E|]. split; [lia|exact L1]. }
      destruct (Nat.le_gt_cases x (snd (name_span h o l1 a))) as [L2|L2].
      { eapply At_attribute; [auto|]. eapply P_name; [exact E|]. split; [exact L1|exact L2]. }
      destruct (Nat.le_gt_cases x (snd (name_span h o l1 a) + length (gap_of (ha_value a)))) as [L3|L3].
      { eapply At_attribute; [auto|]. eapply P_gap; [exact E|]. split; [exact L2|exact L3]. }
      assert (SN : snd (name_span h o l1 a) = o + 1 + length (h_name h) + length (render_attrs l1) + length (ha_space a) + length (ha_name a)) by reflexivity.
      destruct (value_span h o l1 a) as [[s e]|] eqn:VS; assert (VS' := VS); unfold value_span in VS; destruct (ha_value a) as [|gap v|gap q v] eqn:V; try discriminate; cbn [gap_of render_value length] in *.
      * apply Some_inj, pair_equal_spec in VS as [VS1 VS2]. rewrite !app_length in LE. change (length (bs "=")) with 1 in LE.
        apply (At_value h o x l1 a l2 s e); auto. lia.
      * apply Some_inj, pair_equal_spec in VS as [VS1 VS2]. rewrite !app_length in LE. change (length (bs "=")) with 1 in LE. cbn [length] in LE.
        apply (At_value h o x l1 a l2 s e); auto. rewrite ?app_length in LE. cbn [length] in LE. lia.
      * lia.
    + apply (IH (l1 ++ [a])); [rewrite <- app_assoc; exact E|auto|]. rewrite <- app_assoc. cbn [app]. rewrite (render_length_attrs l1 a l2). lia.
Qed.
Lemma in_head h o x : is_element h -> o < x <= o + length (head h) -> proposal_place h o x.
Proof.
  intros EL L.
  assert (LH : exists k, length (head h) = 1 + length (h_name h) + length (render_attrs (h_attrs h)) + length (h_pad h) + k /\
    (k = 1 /\ (forall name attrs pad, h <> HSelf name attrs pad) \/ k = 2 /\ exists name attrs pad, h = HSelf name attrs pad)).
  { destruct h as [| | |name attrs pad body close pad2|name attrs pad z pad2|name attrs pad|name attrs pad]; try destruct EL; cbn [head h_name h_attrs h_pad]; unfold start_tag; rewrite !app_length;
      change (length (bs "<")) with 1; change (length (bs ">")) with 1; change (length (bs "/>")) with 2; [exists 1|exists 1|exists 1|exists 2]; (split; [lia|]); [left|left|left|right]; (split; [reflexivity|]); [intros; discriminate..|].
    exists name, attrs, pad. reflexivity. }
  destruct LH as (k & LH & K).
  destruct (Nat.eq_dec x (o + 1)); [apply At_bracket; auto|].
  destruct (Nat.le_gt_cases x (o + 1 + length (h_name h))) as [L1|L1]; [apply At_name; [auto|lia]|].
  destruct (Nat.le_gt_cases x (o + 1 + length (h_name h) + length (render_attrs (h_attrs h)))) as [L2|L2].
  { apply (in_attrs h o x (h_attrs h) []); [reflexivity|auto|]. cbn [app]. change (length (render_attrs [])) with 0. lia. }
  destruct (Nat.le_gt_cases x (o + 1 + length (h_name h) + length (render_attrs (h_attrs h)) + length (h_pad h))) as [L3|L3].
  { eapply At_attribute; [auto|]. apply P_pad. lia. }
  destruct K as [[-> NS]|[-> (name & attrs & pad & ->)]].
  - apply At_close; auto. lia.
  - apply At_silent. cbn [silent_at]. lia.
Qed.
Lemma in_list x : forall l o, o < x <= o + length (render_all l) -> exists b h a, l = b ++ h :: a /\
  o + length (render_all b) < x <= o + length (render_all b) + length (render h).
Proof.
  induction l as [|h l IH]; intros o L; [cbn in L; lia|]. cbn [render_all flat_map] in L. rewrite app_length in L. change (flat_map render l) with (render_all l) in L.
  destruct (Nat.le_gt_cases x (o + length (render h))) as [LE|LE].
  - exists [], h, l. split; [reflexivity|]. cbn [render_all flat_map length]. lia.
  - destruct (IH (o + length (render h))) as (b & k & a & -> & L'); [lia|]. exists (h :: b), k, a. split; [reflexivity|].
    cbn [render_all flat_map]. rewrite app_length. change (flat_map render b) with (render_all b). lia.
Qed.
(** Every offset in a document but the first is a place of one of the theorems. *)
Theorem C80_cases : forall l x, 0 < x <= length (render_all l) -> exists c h, l = fill c h /\ proposal_place h (hole c) x.
Proof.
  assert (Q : forall n l o x, length (render_all l) <= n -> o < x <= o + length (render_all l) -> exists c h, l = fill c h /\ proposal_place h (o + hole c) x).
  { induction n as [|n IH]; intros l o x LN L; [lia|]. destruct (in_list x l o L) as (b & h & a & -> & L').
    assert (HERE : proposal_place h (o + length (render_all b)) x -> exists c h0, b ++ h :: a = fill c h0 /\ proposal_place h0 (o + hole c) x) by (intros P; exists (Here b a), h; split; [reflexivity|exact P]).
    set (o' := o + length (render_all b)) in *.
    assert (EL : is_element h -> o' < x <= o' + length (head h) -> exists c h0, b ++ h :: a = fill c h0 /\ proposal_place h0 (o + hole c) x) by (intros EL LX; apply HERE, in_head; auto).
    destruct h as [z|z|w z|name attrs pad body close pad2|name attrs pad z pad2|name attrs pad|name attrs pad].
    - apply HERE. eapply At_text; [reflexivity|]. exact L'.
    - apply HERE, At_silent. exact L'.
    - apply HERE, At_silent. exact L'.
    - destruct (Nat.le_gt_cases x (o' + length (start_tag name attrs pad (bs ">")))) as [L1|L1]; [apply EL; [exact I|]; cbn [head]; lia|].
      destruct (Nat.le_gt_cases x (o' + length (start_tag name attrs pad (bs ">")) + length (render_all body))) as [L2|L2].
      + destruct (IH body (o' + length (start_tag name attrs pad (bs ">"))) x) as (c & k & -> & P); [|lia|].
        * unfold render_all in LN. rewrite flat_map_app in LN. cbn [flat_map render] in LN. rewrite !app_length in LN. unfold start_tag in LN. rewrite !app_length in LN. change (length (bs "<")) with 1 in LN. unfold render_all. lia.
        * exists (Inside b name attrs pad c close pad2 a), k. split; [reflexivity|]. cbn [hole]. rewrite !Nat.add_assoc. exact P.
      + apply HERE. set (e := o' + length (start_tag name attrs pad (bs ">")) + length (render_all body)) in *.
        destruct (Nat.le_gt_cases x (e + 2 + length close)) as [L3|L3]; [apply (At_end _ _ _ e); [reflexivity|]; cbn [close_name]; lia|].
        apply At_silent. cbn [silent_at]. exists e. split; [reflexivity|]. cbn [close_name]. lia.
    - destruct (Nat.le_gt_cases x (o' + length (start_tag name attrs pad (bs ">")))) as [L1|L1]; [apply EL; [exact I|]; cbn [head]; lia|]. apply HERE.
      set (e := o' + length (start_tag name attrs pad (bs ">")) + length z).
      destruct (Nat.le_gt_cases x e) as [L2|L2]; [apply At_silent; cbn [silent_at head]; exists e; split; [reflexivity|lia]|].
      destruct (Nat.le_gt_cases x (e + 2 + length name)) as [L3|L3]; [apply (At_end _ _ _ e); [reflexivity|]; cbn [close_name]; lia|].
      apply At_silent. cbn [silent_at]. exists e. split; [reflexivity|]. cbn [close_name]. lia.
    - apply EL; [exact I|exact L'].
    - apply EL; [exact I|exact L']. }
  intros l x L. apply (Q (length (render_all l)) l 0 x); [lia|exact L].
Qed.

(** ** A document *)
Definition in_h : html := HVoid (bs "input") [mkHAttr (bs " ") (bs "type") (Quoted (bs " ") 34%N (bs "te x")); mkHAttr (bs " ") (bs "data-k") NoValue] (bs " ").
Definition par_h : html := HElement (bs "p") [] [] [HText (bs "a &am")] (bs "P") (bs " ").
Definition in_ctx : ctx := Inside [] (bs "ul") [] [] (Here [] [HComment (bs "c"); par_h]) (bs "ul") [] [].
Definition par_ctx : ctx := Inside [] (bs "ul") [] [] (Here [in_h; HComment (bs "c")] []) (bs "ul") [] [].
Definition text_ctx : ctx := Inside [] (bs "ul") [] [] (Inside [in_h; HComment (bs "c")] (bs "p") [] [] (Here [] []) (bs "P") (bs " ") []) (bs "ul") [] [].
Example in_text : render_all (fill in_ctx in_h) = bs "<ul><input type =""te x"" data-k ><!--c--><p>a &am</P ></ul>" /\
  fill par_ctx par_h = fill in_ctx in_h /\ fill text_ctx (HText (bs "a &am")) = fill in_ctx in_h.
Proof. repeat split. Qed.
Lemma in_good : good_doc demo_unicode false html5_void (fill in_ctx in_h).
Proof.
  split; [|cbn; auto]. apply Forall_cons; [|apply Forall_nil]. apply G_element; try name; try blanks.
  - intros [H|H]; discriminate.
  - intros H. cbn in H. intuition discriminate.
  - attrs_tac.
  - apply Forall_cons; [|apply Forall_cons; [|apply Forall_cons; [|apply Forall_nil]]].
    + apply G_void; try name; try blanks.
      * intros [H|H]; discriminate.
      * cbn. tauto.
      * attrs_tac; attr_tac; cbn [ha_value]; try exact I. split; [blanks|]. split; [auto|]. split; [apply ascii_utf8; reflexivity|cbn; intuition discriminate].
    + apply G_comment; [apply ascii_utf8; reflexivity|]. intros (u & v & H). destruct u as [|? u]; [discriminate|]. destruct u; discriminate.
    + apply G_element; try name; try blanks.
      * intros [H|H]; discriminate.
      * intros H. cbn in H. intuition discriminate.
      * attrs_tac.
      * apply Forall_cons; [|apply Forall_nil]. apply G_text. split; [discriminate|]. split; [apply ascii_utf8; reflexivity|cbn; intuition discriminate].
      * cbn. auto.
      * reflexivity.
  - cbn. auto.
  - reflexivity.
Qed.
(** The places of the theorems. *)
Example C80_demo : let t := render_all (fill in_ctx in_h) in
  textdoc_ok (utf16_doc t) /\ is_element in_h /\ is_element par_h /\
  hole in_ctx = 4 /\ hole par_ctx = 40 /\ hole text_ctx = 43 /\ outer in_ctx = Some (bs "ul", 0) /\ outer text_ctx = Some (bs "p", 40) /\
  attr_place in_h 4 13 (Some (bs "type")) 11 15 true /\ attr_place in_h 4 11 None 11 11 false /\ attr_place in_h 4 16 None 16 16 true /\ attr_place in_h 4 31 None 31 31 false /\
  (exists a l2, h_attrs in_h = [] ++ a :: l2 /\ value_span in_h 4 [] a = Some (17, 23)) /\
  head in_h = bs "<input type =""te x"" data-k >" /\ tail_at par_h 40 = Some 48 /\ close_name par_h = bs "P" /\
  silent_at par_h 40 52 /\ silent_at (HComment (bs "c")) 32 38 /\ reference_at t 48 45.
Proof.
  intros t. repeat (split; [first [reflexivity|exact I|apply C27_contract, ascii_utf8; reflexivity]|]).
  split; [apply (P_name in_h 4 13 [] _ [mkHAttr (bs " ") (bs "data-k") NoValue] eq_refl); vm_compute; lia|].
  split; [apply (P_space in_h 4 11 [] _ [mkHAttr (bs " ") (bs "data-k") NoValue] eq_refl); vm_compute; lia|].
  split; [apply (P_gap in_h 4 16 [] _ [mkHAttr (bs " ") (bs "data-k") NoValue] eq_refl); vm_compute; lia|].
  split; [apply P_pad; vm_compute; lia|].
  split; [eexists _, _; split; reflexivity|].
  repeat (split; [reflexivity|]). split; [eexists; split; [reflexivity|vm_compute; lia]|]. split; [vm_compute; lia|].
  split; [lia|]. split; [reflexivity|]. intros i L. assert (i = 46 \/ i = 47) as [-> | ->] by lia; [exists 97%N|exists 109%N]; (split; [reflexivity|]); unfold alnum; lia.
Qed.
(** What is proposed there: behind '<'; on a name; where attributes can be; on a value; behind the '>' of
    a start tag; in the end tag of an element (the end tag of the element around it); in text; and
    behind the name of an end tag and in a comment. *)
Example C80_results : let run := edits_at (render_all (fill in_ctx in_h)) in
  run 5 = Ok [(bs "!DOCTYPE", Some (rng0 5 10, bs "!DOCTYPE html>")); (bs "p", Some (rng0 5 10, bs "p")); (bs "input", Some (rng0 5 10, bs "input")); (bs "/ul", Some (rng0 5 10, bs "/ul>"))] /\
  run 7 = Ok [(bs "p", Some (rng0 5 10, bs "p")); (bs "input", Some (rng0 5 10, bs "input"))] /\
  run 13 = Ok [(bs "type", Some (rng0 11 15, bs "type")); (bs "data-", Some (rng0 11 15, bs "data-$1=""$2"""))] /\
  run 31 = Ok [(bs "data-", Some (rng0 31 31, bs "data-$1=""$2"""))] /\
  run 22 = Ok [(bs "text", Some (rng0 21 22, bs "text")); (bs "button", Some (rng0 21 22, bs "button"))] /\
  run 43 = Ok [(bs "</p>", Some (rng0 43 43, bs "$0</p>"))] /\
  run 51 = Ok [(bs "/ul", Some (rng0 49 51, bs "/ul"))] /\
  (do l <- run 48; Ok (existsb (fun x => beq (fst x) (bs "&amp;")) l)) = Ok true /\
  run 52 = Ok [] /\ run 38 = Ok [] /\ run 0 = Ok [].
Proof. vm_compute. repeat split. Qed.
Print Assumptions C80_bracket.
Print Assumptions C80_name.
Print Assumptions C80_auto_close.
Print Assumptions C80_end_tag.
Print Assumptions C80_text.
Print Assumptions C80_front.
Print Assumptions C80_silent.
Print Assumptions C80_attribute.
Print Assumptions C80_attribute_edits.
Print Assumptions C80_value.
Print Assumptions C80_cases.
