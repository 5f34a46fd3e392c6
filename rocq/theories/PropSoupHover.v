(** * C89: hovering over tags in any order *)
From Verif Require Import SelectionRange PropTags PropSelection Base BaseFacts Stream Scanner ScannerFacts ScanStep ScanProps ScanShape ScanPanic Tree
  Parser ParseSpec ParseInv ParseOrder PropParse TreeFacts PropTree ParseEnd PropEnd TextDoc PropDoc
  SelAttr TokenLoop NodeScan DataManager PropData BuiltinData Entities Hover Completion PropTagComplete PropHover PropAnswers
  Render RenderFacts PropRender PropRename ScanComplete ParseKeep Lexing PropTokens PropScan PropTagDoc PropHoverTree PropTyped PropSoup PropSoupTyping PropSoupTags PropSoupInside.
From Verif Require TokenRun.
From Coq Require Import ZifyBool ZifyNat ZifyN Sorted.

(** ** The tokens of the start tag *)
Lemma trun_front U t emit cs sc l sc2 : TokenRun.trun U t emit cs sc l sc2 -> forall f ks z, tokens U t emit cs f sc = Ok (ks, z) ->
  exists ks1 ks2 f2, ks = ks1 ++ ks2 /\ map seen ks1 = place (pos sc) (filter written l) /\ tokens U t emit cs f2 sc2 = Ok (ks2, z).
Proof.
  induction 1 as [sc|sc k l sc2 _ IH|sc sc1 s l sc2 S N NE O E P SB _ IH]; intros f ks z H.
  - exists [], ks, f. auto.
  - destruct (IH _ _ _ H) as (ks1 & ks2 & f2 & Q). exists ks1, ks2, f2. exact Q.
  - destruct f as [|f]; [discriminate|]. cbn [tokens] in H. rewrite S in H. cbn [bind] in H. apply token_eqb_neq in N. rewrite N in H.
    apply bind_ok in H as ([ks0 z0] & H1 & H). apply Ok_inj, pair_equal_spec in H as [<- <-].
    destruct (IH _ _ _ H1) as (ks1 & ks2 & f2 & -> & M & T). exists (token_of sc1 :: ks1), ks2, f2. split; [reflexivity|]. split; [|exact T].
    assert (W : filter written ((tok sc1, s) :: l) = (tok sc1, s) :: filter written l).
    { cbn [filter]. unfold written at 1. cbn [snd]. destruct s; [tauto|reflexivity]. }
    rewrite W. cbn [map place]. rewrite M. unfold seen at 1. cbn [token_of tk_type tk_off tk_end]. rewrite O, P. reflexivity.
Qed.

(** The start tag as that of an element, to say where its attributes are written (C79). *)
Definition as_element (name : str) (attrs : list hattr) (pad : str) : html := HElement name attrs pad [] name [].
Section Start.
Variables (U : unicode) (cs : bool) (void : list str) (l : list part) (name : str) (attrs : list hattr) (pad s : str) (roots : list node).
Notation t := (soup_text (l ++ [Opening name attrs pad]) ++ s).
Notation d := (utf16_doc t).
Notation h := (as_element name attrs pad).
Notation o := (length (soup_text l)).
Notation size := (length (start_tag name attrs pad (bs ">"))).
Hypothesis HU : Utf8 t.
Hypothesis HG : good_soup U cs void (l ++ [Opening name attrs pad]).
Hypothesis HP : parse U t cs void = Ok roots.
Variables (md : bool) (parts : list hover_participant) (providers : list provider) (lang : str).
Variables (ents : list (str * list N)) (opts : hover_settings).
Notation tag_hover := (get_tag_hover U cs md providers lang opts).
Notation attr_hover := (get_attr_hover md providers lang opts).
Notation value_hover := (get_attr_value_hover md parts providers lang opts).
Notation span s := (range_at d (fst s) (snd s)).
Notation hov x := (do_hover U d cs md parts providers lang ents opts (position_at d x) roots).
Notation lead := (lex_start name attrs pad (StartTagClose, bs ">")).

Let HD : textdoc_ok d := C27_contract t HU.
Lemma text_split : t = soup_text l ++ start_tag name attrs pad (bs ">") ++ s.
Proof. unfold soup_text. rewrite flat_map_app. cbn [flat_map part_text]. rewrite app_nil_r, <- app_assoc. reflexivity. Qed.
Lemma here x : Bd t x -> offset_at d (position_at d x) = x.
Proof. intros B. apply (do_inv _ HD); [apply Bd_le; auto|apply Bd_boundary; auto]. Qed.
Lemma column x : Bd t x -> column_ok t x (position_at d x).
Proof. intros B. apply utf16_column; auto; [apply Bd_le; auto|apply Bd_boundary; auto]. Qed.
Lemma good_tag : good_name U name /\ good_attrs attrs /\ blank pad.
Proof. destruct HG as [G _]. apply Forall_app in G as [_ G]. apply Forall_cons_iff in G as [(GN & NR & NV & GT & BP) _]. auto. Qed.

(** The element, in the tree whatever follows. *)
Lemma opened_here : exists n, In n (doc_nodes roots) /\ n_start n = o /\ n_tag n = Some name /\ n_ste n = Some (o + size) /\
  (forall k, start_tag_token U d cs n (o + size) k -> In (seen k) (place o (filter written lead))) /\
  (forall x, In x (place o (filter written lead)) -> exists k, start_tag_token U d cs n (o + size) k /\ seen k = x).
Proof.
  destruct HG as [G NS]. apply Forall_app in G as [GA G]. apply Forall_cons_iff in G as [(GN & NR & NV & GT & BP) _]. apply unsplit_app in NS as [NA _].
  destruct (C82_parse U cs void l (conj GA NA)) as (left & ns & DA & _).
  pose proof (at_start _ HU) as A0. rewrite text_split in A0 at 2. assert (AT := A0). set (i0 := mkP (node_new 0 (length t)) [] None None None).
  assert (LT : start_tag name attrs pad (bs ">") ++ s = [] \/ exists s', start_tag name attrs pad (bs ">") ++ s = 60%N :: s') by (right; unfold start_tag; cbn [bs app]; eauto).
  destruct (soup_run U t cs void HU _ _ _ _ _ _ DA GA NA (scanner_new 0 WithinContent) i0 _ eq_refl eq_refl A0 LT I) as (sc0 & p0 & R0 & S0 & P0 & _ & C0 & M0).
  assert (UL : Utf8 (soup_text l)) by (eapply soup_utf8; eauto).
  apply at_adv in A0; [|exact HU|exact UL]. cbn [pos scanner_new Nat.add] in A0. rewrite <- P0 in A0.
  destruct (open_run_tok U t cs void HU sc0 p0 name attrs pad _ (or_introl S0) A0 GN GT BP NV) as (sc1 & p1 & R1 & P1 & S1 & _ & _ & C1 & Q1 & L1 & L2). specialize (S1 NR).
  pose proof (run_trans _ _ _ _ _ _ _ _ _ _ R0 R1) as R.
  assert (LE : pos sc1 <= length t) by (rewrite P1, P0, text_split, !app_length; lia).
  destruct (stays_open U t cs void roots HU HP name (pos sc0) (pos sc1) sc1 p1 R LE S1) as (n & IN & W1 & W2 & W3 & W4 & W5).
  { rewrite C1. repeat split. }
  { rewrite Q1. discriminate. }
  rewrite P1, P0 in W3. rewrite P0 in W2. exists n. split; [exact IN|]. split; [exact W2|]. split; [exact W1|]. split; [exact W3|].
  destruct (node_facts _ _ _ _ _ HU HP) as (ks & HT & _). assert (HT' := HT). unfold doc_tokens in HT'. apply bind_ok in HT' as ([ks0 z] & HT' & E). apply Ok_inj in E. subst ks0.
  destruct (soup_trun U t true cs void HU l (scanner_new 0 WithinContent) _ GA NA eq_refl AT LT) as (s1 & T1 & Z1 & P2). cbn [pos scanner_new Nat.add] in P2.
  rewrite P0, <- P2 in A0.
  destruct (TokenRun.open_run U t true cs HU s1 name attrs pad s (or_introl Z1) A0 GN GT BP) as (s2 & T2 & P3 & _).
  destruct (trun_front _ _ _ _ _ _ _ T1 _ _ _ HT') as (ks1 & ks2 & f2 & -> & M1 & HT2). cbn [pos scanner_new] in M1.
  destruct (trun_front _ _ _ _ _ _ _ T2 _ _ _ HT2) as (ks3 & ks4 & f4 & -> & M2 & HT4). rewrite P2 in M2.
  assert (JL : length (joined lead) = size) by (rewrite joined_start; reflexivity).
  assert (BD : forall ty i j q x, In (ty, i, j) (place q (filter written x)) -> q <= i < j /\ j <= q + length (joined x)).
  { intros ty i j q x H. apply place_in in H as (p' & w & q' & -> & W & -> & ->). rewrite joined_app. cbn [joined flat_map snd]. rewrite !app_length.
    unfold joined. destruct w; [congruence|]. cbn [length]. lia. }
  split.
  - intros k (ks' & T & IK & B1 & B2 & B3). cbn [d_text utf16_doc] in T. rewrite HT in T. apply Ok_inj in T. subst ks'. rewrite W2 in B1. apply in_app_iff in IK as [IK|IK]; [|apply in_app_iff in IK as [IK|IK]].
    + exfalso. apply (in_map seen) in IK. rewrite M1 in IK. apply BD in IK. rewrite joined_soup in IK. lia.
    + rewrite <- M2. apply in_map. exact IK.
    + exfalso. pose proof (tokens_from U t cs HU _ _ _ _ HT4) as Q. rewrite Forall_forall in Q. apply Q in IK. lia.
  - intros [[ty i] j] IX. assert (IX' := IX). rewrite <- M2 in IX'. apply in_map_iff in IX' as (k & K1 & K2). exists k. split; [|exact K1].
    exists (ks1 ++ ks3 ++ ks4). split; [exact HT|]. split; [apply in_or_app; right; apply in_or_app; auto|]. rewrite W2. apply BD in IX. rewrite JL in IX.
    unfold seen in K1. injection K1 as _ -> ->. lia.
Qed.
Lemma innermost_in n x : In n (doc_nodes roots) -> n_start n = o -> n_ste n = Some (o + size) -> o <= x < o + size -> innermost roots x n.
Proof.
  intros IN N1 N2 X. destruct (C12_spans _ _ _ _ _ HU HP) as [_ SP]. rewrite Forall_forall in SP. destruct (SP n IN) as (S1 & S2 & S3). rewrite N2 in S3.
  apply (innermost_bare U cs void d roots HD HP); auto.
  - destruct (n_ets n); lia.
  - intros c C Q. assert (K : exists b, ParseSpec.chain (o + size) (n_children n) b) by (destruct (n_ets n); [exists n0|exists (n_end n)]; tauto).
    destruct K as (b & K). pose proof (chain_bounds _ _ _ _ K C). lia.
Qed.

(** What the tokens of the start tag are, for the cursor. *)
Lemma tag_on x n :
  (forall k, start_tag_token U d cs n (o + size) k -> In (seen k) (place o (filter written lead))) ->
  (forall x, In x (place o (filter written lead)) -> exists k, start_tag_token U d cs n (o + size) k /\ seen k = x) ->
  let on ty := exists k, start_tag_token U d cs n (o + size) k /\ touch ty x k in
  (on StartTag <-> on_span (o + 1, o + 1 + length name) x) /\
  (on AttributeName <-> exists l1 a l2, attrs = l1 ++ a :: l2 /\ on_span (name_span h o l1 a) x) /\
  (on AttributeValue <-> exists l1 a l2 sp, attrs = l1 ++ a :: l2 /\ value_span h o l1 a = Some sp /\ on_span sp x).
Proof.
  intros TI TO on. destruct good_tag as (GN & [GA _] & _). unfold on_span. cbn [fst snd].
  assert (SK : stop_kind StartTagClose) by (left; reflexivity).
  assert (AT : forall l1 a, name_span h o l1 a = (attr_name_at (o + 1 + length name) l1 a, attr_name_at (o + 1 + length name) l1 a + length (ha_name a))) by reflexivity.
  split; [|split]; split.
  - intros (k & K & T1 & T2). apply TI in K. unfold seen in K. rewrite T1 in K.
    apply start_pieces in K as (K & _); [|auto|auto]. destruct (K eq_refl) as [-> ->] in T2. lia.
  - intros L. destruct (TO _ (start_name_piece name attrs pad (StartTagClose, bs ">") o (proj2 (good_name_utf8 _ _ GN)))) as (k & K & S).
    unfold seen in S. injection S as S1 S2 S3. exists k. split; auto. split; auto. lia.
  - intros (k & K & T1 & T2). apply TI in K. unfold seen in K. rewrite T1 in K.
    apply start_pieces in K as (_ & K & _); [|auto|auto]. destruct (K eq_refl) as (l1 & a & l2 & E & I & J).
    exists l1, a, l2. split; auto. rewrite AT. cbn [fst snd]. lia.
  - intros (l1 & a & l2 & E & L). rewrite AT in L. cbn [fst snd] in L.
    assert (Ga : good_attr a) by (rewrite E in GA; apply Forall_app in GA as [_ GA]; inversion GA; auto).
    destruct (attr_pieces name l1 a l2 pad (StartTagClose, bs ">") o Ga) as [P _]. rewrite <- E in P. destruct (TO _ P) as (k & K & S).
    unfold seen in S. injection S as S1 S2 S3. exists k. split; auto. split; auto. lia.
  - intros (k & K & T1 & T2). apply TI in K. unfold seen in K. rewrite T1 in K.
    apply start_pieces in K as (_ & _ & K); [|auto|auto]. destruct (K eq_refl) as (l1 & a & l2 & w & z & E & V & I & J).
    destruct (value_span h o l1 a) as [sp|] eqn:VS.
    2:{ unfold value_span in VS. destruct (ha_value a); discriminate. }
    exists l1, a, l2, sp. split; auto. split; auto. destruct (value_piece _ _ _ _ _ VS) as (w' & z' & V' & -> & _).
    rewrite V in V'. injection V' as <- <-. rewrite AT. cbn [fst snd]. lia.
  - intros (l1 & a & l2 & sp & E & VS & L). destruct (value_piece _ _ _ _ _ VS) as (w & z & V & -> & Z). rewrite AT in L. cbn [fst snd] in L.
    assert (Ga : good_attr a) by (rewrite E in GA; apply Forall_app in GA as [_ GA]; inversion GA; auto).
    destruct (attr_pieces name l1 a l2 pad (StartTagClose, bs ">") o Ga) as [_ P]. rewrite <- E in P. specialize (P w z V (proj1 (Z Ga))). destruct (TO _ P) as (k & K & S).
    unfold seen in S. injection S as S1 S2 S3. exists k. split; auto. split; auto. lia.
Qed.
Lemma apart l1 a l2 x : attrs = l1 ++ a :: l2 ->
  on_span (name_span h o l1 a) x \/ (exists v, value_span h o l1 a = Some v /\ on_span v x) ->
  ~ on_span (o + 1, o + 1 + length name) x /\ o <= x < o + size.
Proof.
  intros E H. destruct good_tag as (_ & [GA _] & _).
  assert (Ga : good_attr a) by (rewrite E in GA; apply Forall_app in GA as [_ GA]; inversion GA; auto).
  destruct Ga as (_ & SP & _). assert (0 < length (ha_space a)) by (destruct (ha_space a); [congruence|cbn; lia]).
  rewrite E. unfold start_tag. rewrite !app_length, render_length_attrs. change (length (bs "<")) with 1. change (length (bs ">")) with 1.
  destruct H as [H|(v & V & H)]; [unfold on_span, name_span in *; cbn [fst snd h_name as_element] in *; lia|].
  destruct (value_piece _ _ _ _ _ V) as (w & z & VL & -> & _). rewrite (value_length _ _ _ VL). unfold on_span, name_span in *. cbn [fst snd h_name as_element] in *. lia.
Qed.
Lemma attr_text l1 a l2 : attrs = l1 ++ a :: l2 ->
  let n := name_span h o l1 a in sub t (fst n) (snd n) = ha_name a /\
  forall w z, lex_value (ha_value a) = [(Whitespace, w); (DelimiterAssign, bs "="); (AttributeValue, z)] ->
    sub t (snd n + length w + 1) (snd n + length w + 1 + length z) = z.
Proof.
  intros E n. assert (TT : t = soup_text l ++ bs "<" ++ name ++ flat_map render_attr l1 ++ ha_space a ++ ha_name a ++ render_value (ha_value a) ++ flat_map render_attr l2 ++ pad ++ bs ">" ++ s).
  { rewrite text_split. unfold start_tag, render_attrs. rewrite E, flat_map_app. cbn [flat_map]. change (render_attr a) with (ha_space a ++ ha_name a ++ render_value (ha_value a)). rewrite <- !app_assoc. reflexivity. }
  rewrite TT.
  unfold n, name_span. cbn [fst snd h_name as_element]. split.
  - match goal with |- sub ?T _ _ = _ => replace T with ((soup_text l ++ bs "<" ++ name ++ flat_map render_attr l1 ++ ha_space a) ++ ha_name a ++
      (render_value (ha_value a) ++ flat_map render_attr l2 ++ pad ++ bs ">" ++ s)) by (rewrite <- !app_assoc; reflexivity) end.
    match goal with |- sub (?A ++ ?X ++ ?C) ?i ?j = _ => transitivity (sub (A ++ X ++ C) (length A) (length A + length X)); [|apply sub_mid] end.
    f_equal; rewrite !app_length; change (length (bs "<")) with 1; unfold render_attrs; lia.
  - intros w z V. assert (VT : render_value (ha_value a) = w ++ bs "=" ++ z).
    { pose proof (joined_attrs [a]) as J. unfold lex_attr, render_attr in J. cbn [flat_map render_attrs] in J. unfold render_attr in J. rewrite V, !app_nil_r in J.
      cbn [joined flat_map snd app] in J. rewrite app_nil_r in J. rewrite <- ?app_assoc in J. apply app_inv_head in J. apply app_inv_head in J. symmetry. exact J. }
    rewrite VT.
    match goal with |- sub ?T _ _ = _ => replace T with ((soup_text l ++ bs "<" ++ name ++ flat_map render_attr l1 ++ ha_space a ++ ha_name a ++ w ++ bs "=") ++ z ++
      (flat_map render_attr l2 ++ pad ++ bs ">" ++ s)) by (rewrite <- !app_assoc; reflexivity) end.
    match goal with |- sub (?A ++ ?X ++ ?C) ?i ?j = _ => transitivity (sub (A ++ X ++ C) (length A) (length A + length X)); [|apply sub_mid] end.
    f_equal; rewrite !app_length; change (length (bs "<")) with 1; change (length (bs "=")) with 1; unfold render_attrs; lia.
Qed.

(** On the name of the tag. *)
Theorem C89_tag : forall x, Bd t x -> on_span (o + 1, o + 1 + length name) x -> hov x = Ok (tag_hover name (span (o + 1, o + 1 + length name))).
Proof.
  intros x B ON. destruct opened_here as (n & IN & N1 & N2 & N3 & TI & TO). assert (OX := here x B).
  assert (LX : o <= x < o + size).
  { unfold on_span in ON. cbn [fst snd] in ON. unfold start_tag. rewrite !app_length. change (length (bs "<")) with 1. change (length (bs ">")) with 1. lia. }
  pose proof (innermost_in n x IN N1 N3 LX) as IM. rewrite <- OX in IM.
  destruct (C45_start_tag U d cs void _ HD HP md parts providers lang ents opts (position_at d x) n _ _ IM N2 N3) as (T1 & _); [rewrite OX; lia|].
  rewrite OX in T1. destruct (tag_on x n TI TO) as (Q & _). destruct (proj2 Q ON) as (k & K & T). rewrite (T1 k K T).
  apply TI in K. unfold seen in K. destruct T as [T _]. rewrite T in K.
  apply start_pieces in K as (K & _); [|apply good_tag|left; reflexivity]. destruct (K eq_refl) as [-> ->]. reflexivity.
Qed.
(** On the name of an attribute. *)
Theorem C89_attribute : forall x l1 a l2, Bd t x -> attrs = l1 ++ a :: l2 -> on_span (name_span h o l1 a) x ->
  hov x = Ok (attr_hover name (ha_name a) (span (name_span h o l1 a))).
Proof.
  intros x l1 a l2 B E ON. destruct opened_here as (n & IN & N1 & N2 & N3 & TI & TO). assert (OX := here x B).
  destruct (apart l1 a l2 x E (or_introl ON)) as [AP LX].
  pose proof (innermost_in n x IN N1 N3 LX) as IM. rewrite <- OX in IM.
  destruct (C45_start_tag U d cs void _ HD HP md parts providers lang ents opts (position_at d x) n _ _ IM N2 N3) as (_ & T1 & _); [rewrite OX; lia|].
  rewrite OX in T1. destruct (tag_on x n TI TO) as (Q1 & Q2 & _). destruct good_tag as (_ & [GA _] & _).
  rewrite <- Q1 in AP. destruct (proj2 Q2 (ex_intro _ l1 (ex_intro _ a (ex_intro _ l2 (conj E ON))))) as (k & K & T).
  rewrite (T1 k K T AP).
  apply TI in K. unfold seen in K. destruct T as [T T2]. rewrite T in K.
  apply start_pieces in K as (_ & K & _); [|exact GA|left; reflexivity]. destruct (K eq_refl) as (l1' & a' & l2' & E' & I' & J').
  assert (GA' := GA). rewrite E in GA'. assert (E2 := E'). rewrite E in E2. unfold on_span, name_span in ON. cbn [fst snd h_name as_element] in ON.
  destruct (two_attrs _ _ _ _ _ _ (o + 1 + length name) GA' E2) as [(<- & <-)|Q]; [|exfalso; unfold attr_name_at in *; lia].
  assert (TN : tk_text t k = ha_name a).
  { unfold tk_text. rewrite J', I'. destruct (attr_text l1 a l2 E) as [TX _]. unfold name_span in TX. cbn [fst snd h_name as_element] in TX. exact TX. }
  change (tk_text (d_text d) k) with (tk_text t k). rewrite TN, J', I'. reflexivity.
Qed.
(** On the value of an attribute, with its quotes, but not on a character reference in it. *)
Theorem C89_value : forall x l1 a l2 v, Bd t x -> attrs = l1 ++ a :: l2 -> value_span h o l1 a = Some v -> on_span v x ->
  (forall i j, ~ entity_at t x i j) ->
  hov x = Ok (value_hover name (ha_name a) (plain_value a) (span v)).
Proof.
  intros x l1 a l2 sp B E VS ON NE. destruct opened_here as (n & IN & N1 & N2 & N3 & TI & TO). assert (OX := here x B).
  assert (VO : exists v, value_span h o l1 a = Some v /\ on_span v x) by eauto.
  destruct (apart l1 a l2 x E (or_intror VO)) as [AP LX].
  pose proof (innermost_in n x IN N1 N3 LX) as IM. rewrite <- OX in IM.
  destruct (C45_start_tag U d cs void _ HD HP md parts providers lang ents opts (position_at d x) n _ _ IM N2 N3) as (_ & _ & T1 & _); [rewrite OX; lia|].
  rewrite OX in T1. destruct (tag_on x n TI TO) as (Q1 & Q2 & Q3). destruct good_tag as (_ & [GA _] & _). assert (GA' := GA). rewrite E in GA'.
  assert (Ga : good_attr a) by (apply Forall_app in GA' as [_ GA']; inversion GA'; auto).
  destruct (value_piece _ _ _ _ _ VS) as (w & z & V & -> & VZ). destruct (VZ Ga) as [ZN ZQ]. clear VZ.
  pose proof (value_length _ _ _ V) as VL. set (oa := o + 1 + length name) in *.
  assert (ONa : attr_name_at oa l1 a + length (ha_name a) + length w + 1 <= x <= attr_name_at oa l1 a + length (ha_name a) + length w + 1 + length z).
  { unfold on_span, name_span in ON. cbn [fst snd h_name as_element] in ON. unfold attr_name_at, oa. lia. }
  assert (NNA : 0 < length (ha_name a)) by (destruct Ga as (_ & _ & Q & _); destruct (ha_name a); [congruence|cbn; lia]).
  rewrite <- Q1 in AP.
  assert (NN : ~ exists k, start_tag_token U d cs n (o + size) k /\ touch AttributeName x k).
  { rewrite Q2. intros (l1' & a' & l2' & E' & ON'). rewrite E in E'. unfold on_span, name_span in ON'. cbn [fst snd h_name as_element] in ON'. fold oa in ON'.
    destruct (two_attrs _ _ _ _ _ _ oa GA' E') as [(<- & <-)|Q]; unfold attr_name_at in *; lia. }
  assert (VO' : exists l1 a l2 sp, attrs = l1 ++ a :: l2 /\ value_span h o l1 a = Some sp /\ on_span sp x) by (eexists l1, a, l2, _; eauto).
  destruct (proj2 Q3 VO') as (k & K & T). destruct (T1 k K T AP NN NE (column x B)) as (before & ka & v & VN & UQ & BE & SS & HR).
  rewrite HR. clear HR T1. assert (SK : stop_kind StartTagClose) by (left; reflexivity).
  destruct (attr_text l1 a l2 E) as [TX1 TX2]. specialize (TX2 w z V).
  assert (KV : tk_off k = attr_name_at oa l1 a + length (ha_name a) + length w + 1 /\ tk_end k = tk_off k + length z).
  { apply TI in K. unfold seen in K. destruct T as [T T2]. rewrite T in K.
    apply start_pieces in K as (_ & _ & K); [|exact GA|exact SK]. destruct (K eq_refl) as (l1' & a' & l2' & w' & z' & E' & V' & I' & J').
    rewrite E in E'. pose proof (value_length _ _ _ V') as VL'. fold oa in I'.
    destruct (two_attrs _ _ _ _ _ _ oa GA' E') as [(<- & <-)|Q]; [rewrite V in V'; injection V' as <- <-; auto|exfalso; lia]. }
  destruct KV as [KV1 KV2].
  assert (TK : tk_text t k = z).
  { unfold tk_text. rewrite KV2, KV1. unfold name_span in TX2. cbn [fst snd h_name as_element] in TX2. exact TX2. }
  change (tk_text (d_text d) k) with (tk_text t k) in UQ. rewrite TK in UQ. rewrite <- (unquoted_one _ _ _ ZQ UQ).
  assert (KN : exists kn, In kn before /\ seen kn = (AttributeName, attr_name_at oa l1 a, attr_name_at oa l1 a + length (ha_name a))).
  { pose proof (proj1 (attr_pieces name l1 a l2 pad (StartTagClose, bs ">") o Ga)) as AP0. rewrite <- E in AP0. destruct (TO _ AP0) as (kn & KN1 & KN2). exists kn. split; auto.
    apply BE. split; auto. unfold seen in KN2. injection KN2 as _ _ ->. fold oa. lia. }
  destruct KN as (kn & KN1 & KN2). unfold seen in KN2. injection KN2 as KN2 KN3 KN4.
  destruct VN as (b1 & b2 & EB & TA & FB). rewrite EB in KN1.
  assert (KA : In ka before) by (rewrite EB; apply in_or_app; cbn; auto). apply BE in KA as [KA LA]. apply TI in KA. unfold seen in KA. rewrite TA in KA.
  apply start_pieces in KA as (_ & KA & _); [|exact GA|exact SK]. destruct (KA eq_refl) as (l1' & a' & l2' & E' & I' & J'). fold oa in I'.
  rewrite E in E'.
  assert (SAME : l1 = l1' /\ a = a').
  { destruct (two_attrs _ _ _ _ _ _ oa GA' E') as [Q|[Q|Q]]; auto; exfalso.
    - lia.
    - apply in_app_iff in KN1 as [KN1|[->|KN1]].
      + rewrite EB in SS. assert (LE : tk_end kn <= tk_off ka).
        { clear - SS KN1. induction b1 as [|u b1 IH]; [destruct KN1|]. cbn [app] in SS. inversion SS as [|? ? S1 S2]; subst. destruct KN1 as [->|KN1]; [|auto].
          rewrite Forall_forall in S2. apply S2. apply in_or_app. cbn; auto. }
        lia.
      + lia.
      + rewrite Forall_forall in FB. destruct (FB _ KN1) as [Q'|Q']; congruence. }
  destruct SAME as [<- <-].
  assert (TN : tk_text t ka = ha_name a).
  { unfold tk_text. rewrite J', I'. unfold name_span in TX1. cbn [fst snd h_name as_element] in TX1. exact TX1. }
  change (tk_text (d_text d) ka) with (tk_text t ka). rewrite TN, KV2, KV1. unfold name_span. cbn [fst snd h_name as_element]. reflexivity.
Qed.
End Start.
Print Assumptions C89_tag.
Print Assumptions C89_attribute.
Print Assumptions C89_value.

(** ** End tags *)
(** In any document at all: in the end tag that closes an element, its name is explained, by the name of the start tag. *)
Theorem C89_end_tag : forall U cs void t roots md parts providers lang ents opts n name e close pad r x,
  Utf8 t -> parse U t cs void = Ok roots -> In n (doc_nodes roots) -> n_tag n = Some name -> n_ets n = Some e ->
  at_ t e (end_tag close pad ++ r) -> good_name U close -> blank pad -> Bd t x -> e <= x < n_end n ->
  let d := utf16_doc t in let name_at := (e + 2, e + 2 + length close) in
  (on_span name_at x -> do_hover U d cs md parts providers lang ents opts (position_at d x) roots = Ok (get_tag_hover U cs md providers lang opts name (range_at d (fst name_at) (snd name_at)))) /\
  (~ on_span name_at x -> do_hover U d cs md parts providers lang ents opts (position_at d x) roots = Ok None).
Proof.
  intros U cs void t roots md parts providers lang ents opts n name e close pad r x HU HP IN N2 N3 A GC GP B L d name_at.
  pose proof (C27_contract t HU) as HD. fold d in HD.
  assert (OX : offset_at d (position_at d x) = x) by (apply (do_inv _ HD); [apply Bd_le; auto|apply Bd_boundary; auto]).
  assert (IM : innermost roots x n).
  { destruct (C12_spans _ _ _ _ _ HU HP) as [_ SP]. rewrite Forall_forall in SP. destruct (SP n IN) as (S1 & S2 & S3). rewrite N3 in S3.
    destruct (n_ste n) as [s1|]; [|contradiction]. apply (innermost_bare U cs void d roots HD HP); auto; [lia|].
    intros c C Q. destruct S3 as (_ & _ & _ & K). pose proof (chain_bounds _ _ _ _ K C). lia. }
  rewrite <- OX in IM.
  destruct (C45_end_tag U d cs void _ HD HP md parts providers lang ents opts (position_at d x) n _ _ IM N2 N3) as (b' & e' & EN & LB & H1 & H2); [rewrite OX; lia|].
  destruct EN as (_ & W & NT). change (d_text d) with t in *.
  unfold end_tag in A. rewrite <- !app_assoc in A. apply at_adv in A; [|auto|apply ascii_utf8; reflexivity]. change (length (bs "</")) with 2 in A.
  assert (EB : b' = e + 2).
  { destruct (Nat.eq_dec b' (e + 2)) as [|NE]; auto. exfalso. destruct W as (_ & _ & W). destruct (W (e + 2)) as (b & Q1 & Q2); [lia|lia|].
    destruct (name_first_byte _ _ GC) as (b1 & r1 & -> & WS & _). destruct A as [A _].
    assert (Q3 : nth_error (skipn (e + 2) t) 0 = Some b) by (rewrite skipn_nth_error, Nat.add_0_r; exact Q1). rewrite A in Q3. cbn in Q3. congruence. }
  subst b'.
  assert (EE : e' = e + 2 + length close).
  { change (bs ">" ++ r) with (62%N :: r) in A. destruct (PropTagDoc.start_stop [] pad 62%N r (Forall_nil _) GP (or_introl eq_refl)) as (b & r' & E & S). cbn [render_attrs flat_map app] in E.
    rewrite E in A. eapply name_end; eauto. destruct NT as (c0 & l0 & SC & SE & _). destruct (Nat.le_gt_cases (e + 2) e') as [|K]; auto. exfalso.
    unfold sub in SE. replace (e' - (e + 2)) with 0 in SE by lia. cbn [firstn] in SE. rewrite encode_cons in SE. cbn [forallb] in SC. apply andb_true_iff in SC as [SC _].
    pose proof (encode1_nonempty _ SC) as Q. destruct (encode1 c0); [cbn in Q; lia|discriminate]. }
  subst e'. rewrite OX in H1, H2. unfold on_span. cbn [fst snd name_at]. split; intros Q; [apply H1|apply H2]; lia.
Qed.
Print Assumptions C89_end_tag.

(** ** A document of this kind *)
From Verif Require Import PropHoverDoc.
Definition div_attrs : list hattr := [mkHAttr (bs " ") (bs "align") (Quoted [] 39%N (bs "left")); mkHAttr (bs " ") (bs "title") (Quoted [] 34%N (bs "x"))].
Definition div_soup : list part := mixed ++ [Opening (bs "div") div_attrs []].
Definition div_rest : str := bs "x</b><p a=""".
Example C89_text : soup_text div_soup ++ div_rest = bs "<ul><li>a<li>b</UL></p><b><br><div align='left' title=""x"">x</b><p a=""".
Proof. reflexivity. Qed.
(** It meets the conditions of the theorems. *)
Example C89_demo : let t := soup_text div_soup ++ div_rest in let h := as_element (bs "div") div_attrs [] in let o := length (soup_text mixed) in
  good_soup demo_unicode false html5_void div_soup /\ Utf8 t /\ (exists roots, parse demo_unicode t false html5_void = Ok roots) /\
  (o + 1, o + 1 + length (bs "div")) = (31, 34) /\
  (exists a l2, div_attrs = [] ++ a :: l2 /\ name_span h o [] a = (35, 40) /\ value_span h o [] a = Some (41, 47) /\ plain_value a = bs "left") /\
  (forall i j, ~ entity_at t 43 i j) /\ Forall (Bd t) [32; 37; 43].
Proof.
  intros t h o. assert (HT : Utf8 t) by (apply ascii_utf8; reflexivity). split; [|split; [exact HT|]].
  { destruct mixed_good as [G _]. split; [|cbn; repeat split; auto; discriminate]. apply Forall_app. split; [exact G|]. apply Forall_cons; [|apply Forall_nil].
    split; [name|]. split; [intros [H|H]; discriminate|]. split; [intros H; cbn in H; intuition discriminate|]. split; [|blanks].
    attrs_tac; attr_tac; cbn [ha_value]; (split; [blanks|]); (split; [auto|]); (split; [apply ascii_utf8; reflexivity|cbn; intuition discriminate]). }
  split.
  { destruct (parse demo_unicode t false html5_void) as [r| |] eqn:E; [exists r; reflexivity|exfalso; vm_compute in E; discriminate..]. }
  split; [reflexivity|]. split; [eexists _, _; repeat split|]. split.
  - intros i j (P & L & A & _). assert (Q : ~ In 38%N t) by (vm_compute; intuition discriminate). apply Q. eapply nth_error_In. exact A.
  - repeat (constructor; [apply boundary_Bd; [exact HT|vm_compute; lia|vm_compute; reflexivity]|]). constructor.
Qed.
(** What is shown on the name, the attribute and its value;
    the end tag that closes nothing is not explained. *)
Example C89_results : let run := hover_run false (soup_text div_soup ++ div_rest) in
  run 32 = Ok (Some (HMarkup (mkMarkup PlainText (bs "A *division*." ++ [10%N; 10%N] ++ bs "MDN: https://m.org/div")), 31, 34)) /\
  run 37 = Ok (Some (HMarkup (mkMarkup PlainText (bs "How to align")), 35, 40)) /\
  run 43 = Ok (Some (HMarkup (mkMarkup PlainText (bs "To the left")), 41, 47)) /\ run 21 = Ok None.
Proof. vm_compute. repeat split. Qed.
