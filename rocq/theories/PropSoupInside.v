(** * C88: closing what is open, whatever follows *)
From Verif Require Import SelectionRange PropTags PropSelection Base BaseFacts Stream Scanner ScannerFacts ScanStep ScanProps ScanShape ScanPanic Tree
  Parser ParseSpec ParseInv ParseOrder PropParse TreeFacts PropTree ParseEnd PropEnd TextDoc PropDoc
  SelAttr TokenLoop NodeScan DataManager PropData BuiltinData Entities Hover Completion PropTagComplete PropHover PropComplete PropEdits PropAnswers PropProposals
  Render RenderFacts PropRender PropRename ScanComplete ParseKeep Lexing PropTokens PropTagDoc PropHoverTree PropTyped PropSoup PropSoupTyping PropSoupComplete.
From Verif Require TokenRun.
From Coq Require Import ZifyBool ZifyNat ZifyN.

(** ** The innermost element left open *)
Section Split.
Variables (U : unicode) (cs : bool).
Notation denotes := (denotes U cs).
Lemma open_split around o l e left ns : denotes around o l e left ns -> forall left0 x, left = left0 ++ [x] ->
  exists A attrs pad B kids nsA, l = A ++ Opening x attrs pad :: B /\
    denotes around o A (o + length (soup_text A)) left0 nsA /\
    denotes (x :: rev left0 ++ around) (o + length (soup_text (A ++ [Opening x attrs pad]))) B e [] kids.
Proof.
  induction 1 as [around o|around o h l e left ns D IH|around o name pad l e left ns N D IH|
    around o name attrs pad body b open kids close pad2 l e left ns a z' D1 IH1 NO SN D2 IH2|around o name attrs pad body e open kids a D IH]; intros left0 x E.
  - destruct left0; discriminate.
  - destruct (IH left0 x E) as (A & at0 & pd & B & ks & nsA & -> & DA & DB). exists (Piece h :: A), at0, pd, B, ks. eexists. split; [reflexivity|].
    replace (o + length (soup_text (Piece h :: A))) with (o + length (render h) + length (soup_text A)) by (unfold soup_text; cbn [flat_map part_text]; rewrite app_length; lia).
    replace (o + length (soup_text ((Piece h :: A) ++ [Opening x at0 pd]))) with (o + length (render h) + length (soup_text (A ++ [Opening x at0 pd]))) by (unfold soup_text; cbn [app flat_map part_text]; rewrite app_length; lia).
    split; [apply D_piece; exact DA|exact DB].
  - destruct (IH left0 x E) as (A & at0 & pd & B & ks & nsA & -> & DA & DB). exists (Closing name pad :: A), at0, pd, B, ks. eexists. split; [reflexivity|].
    replace (o + length (soup_text (Closing name pad :: A))) with (o + length (end_tag name pad) + length (soup_text A)) by (unfold soup_text; cbn [flat_map part_text]; rewrite app_length; lia).
    replace (o + length (soup_text ((Closing name pad :: A) ++ [Opening x at0 pd]))) with (o + length (end_tag name pad) + length (soup_text (A ++ [Opening x at0 pd]))) by (unfold soup_text; cbn [app flat_map part_text]; rewrite app_length; lia).
    split; [apply D_stray; [exact N|exact DA]|exact DB].
  - destruct (IH2 left0 x E) as (A & at0 & pd & B & ks & nsA & -> & DA & DB). pose proof (denotes_end _ _ _ _ _ _ _ _ D1) as DE1.
    assert (LZ : forall C, o + length (soup_text ((Opening name attrs pad :: body ++ Closing close pad2 :: A) ++ C)) = z' + length (soup_text (A ++ C))).
    { intros C. unfold z'. rewrite DE1. unfold a, soup_text. cbn [app flat_map part_text]. rewrite <- app_assoc. cbn [app]. rewrite !flat_map_app. cbn [flat_map part_text]. rewrite !flat_map_app, !app_length. lia. }
    exists (Opening name attrs pad :: body ++ Closing close pad2 :: A), at0, pd, B, ks. eexists. split; [cbn [app]; rewrite <- app_assoc; reflexivity|].
    rewrite LZ. split; [|exact DB]. specialize (LZ []). rewrite !app_nil_r in LZ. rewrite LZ. eapply D_closed; eauto.
  - destruct left0 as [|y0 left0]; cbn [app] in E.
    + injection E as <- ->. exists [], attrs, pad, body, kids, []. split; [reflexivity|]. cbn [soup_text flat_map part_text app rev length]. rewrite app_nil_r, Nat.add_0_r. split; [apply D_end|exact D].
    + injection E as <- E. destruct (IH left0 x E) as (A & at0 & pd & B & ks & nsA & -> & DA & DB).
      assert (LZ : forall C, o + length (soup_text ((Opening name attrs pad :: A) ++ C)) = a + length (soup_text (A ++ C))) by (intros C0; unfold a, soup_text; cbn [app flat_map part_text]; rewrite app_length; lia).
      exists (Opening name attrs pad :: A), at0, pd, B, ks. eexists. split; [reflexivity|]. rewrite LZ. cbn [rev]. rewrite <- app_assoc. split; [|exact DB].
      specialize (LZ []). rewrite !app_nil_r in LZ. rewrite LZ. apply D_open. exact DA.
Qed.
End Split.

(** ** What the rest of the document leaves as it is *)
Section Rest.
Variables (U : unicode) (d : textdoc) (cs : bool) (void : list str) (roots : list node) (l : list part) (s : str).
Hypothesis HD : textdoc_ok d.
Hypothesis ET : d_text d = soup_text l ++ 60%N :: s.
Hypothesis HP : parse U (d_text d) cs void = Ok roots.
Hypothesis HG : good_soup U cs void l.
Notation t := (d_text d).
Notation e := (length (soup_text l)).
Let i0 := mkP (node_new 0 (length t)) [] None None None.
(** In front of [e]: the node is over at [e]. *)
Definition over (k : nat) (m : node) : Prop := n_end m <= k /\ ~ PropEnd.open_at k m.
Lemma kids_over around o l0 e0 ns : denotes U cs around o l0 e0 [] ns -> Forall (good_part U cs void) l0 ->
  forall m, In m (flat_map preorder ns) -> over e0 m.
Proof.
  intros D G m I. split; [eapply denotes_bounds; eauto|]. destruct (stretched U cs void _ _ _ _ _ _ D G (S e0) ltac:(lia)) as (_ & S2 & _). exact (S2 eq_refl m I).
Qed.
Lemma starts_node m roots0 : In m (flat_map starts roots0) -> exists x, In x (flat_map preorder roots0) /\ n_start x = m.
Proof.
  intros IM. apply in_flat_map in IM as (c & C & IM). unfold starts in IM. apply in_map_iff in IM as (x & XE & X). exists x. split; auto. apply in_flat_map. eauto.
Qed.
Lemma front_run left ns : denotes U cs [] 0 l e left ns ->
  exists sc p, run U t cs void (scanner_new 0 WithinContent) i0 sc p /\ st sc = WithinContent /\ pos sc = e /\ at_ t e (60%N :: s) /\
  (left = [] -> forall m, In m (doc_nodes roots) -> n_start m < e -> over e m) /\
  (forall left0 x, left = left0 ++ [x] -> exists A attrs pad B kids y, l = A ++ Opening x attrs pad :: B /\
     denotes U cs (x :: rev left0) (length (soup_text (A ++ [Opening x attrs pad]))) B e [] kids /\
     In y (doc_nodes roots) /\ was_open e x (length (soup_text A)) (length (soup_text (A ++ [Opening x attrs pad]))) y /\
     is_open x (length (soup_text A)) (length (soup_text (A ++ [Opening x attrs pad]))) (cur p) /\ parents p <> [] /\
     forall m, In m (doc_nodes roots) -> n_start m < e -> n_start m <= n_start y \/ over e m).
Proof.
  intros D. assert (HU : Utf8 t) by apply HD. destruct HG as [G NS]. assert (UL : Utf8 (soup_text l)) by (eapply soup_utf8; eauto).
  pose proof (at_start _ HU) as A0. rewrite ET in A0 at 2. assert (AE := A0). apply at_adv in AE; [|exact HU|exact UL]. cbn [pos scanner_new Nat.add] in AE.
  pose proof (at_len _ _ _ AE) as LA. cbn [length] in LA.
  assert (REST : forall sc p, run U t cs void (scanner_new 0 WithinContent) i0 sc p -> pos sc = e -> forall m, In m (doc_nodes roots) -> n_start m < e -> In (n_start m) (pstarts p)).
  { intros sc p R P m M L. destruct (rest_of_run U t cs void _ _ _ R ltac:(lia) HP) as (fuel & p' & E & ER). destruct (loop_starts U t cs void HU _ _ _ _ E) as (ex & X1 & X2).
    assert (IM : In (n_start m) (pstarts p')) by (unfold pstarts; rewrite <- (starts_closed t), <- ER; apply in_map; auto).
    rewrite X1, in_app_iff in IM. destruct IM as [IM|IM]; [exact IM|]. rewrite Forall_forall in X2. apply X2 in IM. lia. }
  destruct left as [|x left0 _] using rev_ind.
  - destruct (soup_run U t cs void HU _ _ _ _ _ _ D G NS (scanner_new 0 WithinContent) i0 (60%N :: s) eq_refl eq_refl A0) as (sc & p & R & S & P & _ & C & _); [right; eauto|exact I|].
    exists sc, p. split; [exact R|]. split; [exact S|]. split; [exact P|]. split; [exact AE|]. split; [|intros left0 x E; destruct left0; discriminate].
    intros _ m M L. pose proof (REST sc p R P m M L) as IM. cbn [length collapse] in C. apply Some_inj, pair_equal_spec in C as [C1 C2].
    unfold pstarts in IM. rewrite C2, C1 in IM. cbn [i0 parents zstarts cur plus set_children n_children node_new app] in IM. apply starts_node in IM as (y & Y & YE).
    assert (IY : In y (doc_nodes roots)).
    { apply (stays_ended U t cs void roots HU HP y sc p R); auto; [lia|]. exists (cur p). split; [left; reflexivity|]. rewrite C1. exact Y. }
    assert (y = m) by (apply (same_start U d cs void roots HD HP); auto). subst y. eapply kids_over; eauto.
  - destruct (open_split U cs _ _ _ _ _ _ D left0 x eq_refl) as (A & at0 & pd & B & kids & nsA & EL & DA & DB). cbn [Nat.add] in DA, DB. rewrite app_nil_r in DB.
    assert (GA : Forall (good_part U cs void) A /\ good_part U cs void (Opening x at0 pd) /\ Forall (good_part U cs void) B).
    { rewrite EL in G. apply Forall_app in G as [G1 G2]. apply Forall_cons_iff in G2 as [G2 G3]. auto. }
    destruct GA as (GA & (GN & NR & NV & GT & BP) & GB).
    assert (NA : unsplit A /\ unsplit B) by (rewrite EL in NS; apply unsplit_app in NS as [N1 N2]; split; [exact N1|apply N2]). destruct NA as [NA NB].
    assert (TX : soup_text l ++ 60%N :: s = soup_text A ++ start_tag x at0 pd (bs ">") ++ soup_text B ++ 60%N :: s).
    { rewrite EL. unfold soup_text. rewrite flat_map_app. cbn [flat_map part_text]. rewrite <- !app_assoc. reflexivity. }
    rewrite TX in A0.
    destruct (soup_run U t cs void HU _ _ _ _ _ _ DA GA NA (scanner_new 0 WithinContent) i0 _ eq_refl eq_refl A0) as (sc0 & p0 & R0 & S0 & P0 & _ & C0 & M0).
    { right. unfold start_tag. cbn [bs app]. eauto. }
    { exact I. }
    rewrite app_nil_r in M0. apply at_adv in A0; [|exact HU|eapply soup_utf8; eauto]. cbn [pos scanner_new Nat.add] in A0. rewrite <- P0 in A0.
    destruct (open_run_tok U t cs void HU sc0 p0 x at0 pd _ (or_introl S0) A0 GN GT BP NV) as (sc1 & p1 & R1 & P1 & S1 & _ & _ & C1 & Q1 & _). specialize (S1 NR).
    assert (UT : Utf8 (start_tag x at0 pd (bs ">"))) by (eapply start_utf8; eauto; apply u_one; reflexivity).
    apply at_adv in A0; [|exact HU|exact UT]. rewrite <- P1 in A0.
    assert (LA1 : pos sc1 = length (soup_text (A ++ [Opening x at0 pd]))) by (rewrite P1, P0; unfold soup_text; rewrite flat_map_app; cbn [flat_map part_text]; rewrite app_nil_r, app_length; reflexivity).
    rewrite LA1 in A0.
    destruct (soup_run U t cs void HU _ _ _ _ _ _ DB GB NB sc1 p1 _ S1 LA1 A0) as (sc2 & p2 & R2 & S2 & P2 & _ & C2 & _); [right; eauto| |].
    { rewrite Q1. cbn [names_of]. split; [rewrite C1; reflexivity|exact M0]. }
    cbn [length collapse] in C2. apply Some_inj, pair_equal_spec in C2 as [C2 Q2].
    pose proof (run_trans _ _ _ _ _ _ _ _ _ _ R0 R1) as RA. pose proof (run_trans _ _ _ _ _ _ _ _ _ _ RA R2) as R.
    assert (OC : is_open x (length (soup_text A)) (length (soup_text (A ++ [Opening x at0 pd]))) (cur p2)) by (rewrite C2, C1; cbn; rewrite P0, LA1; repeat split).
    assert (PN : parents p2 <> []) by (rewrite Q2, Q1; discriminate).
    destruct (stays_open U t cs void roots HU HP x (length (soup_text A)) (length (soup_text (A ++ [Opening x at0 pd]))) sc2 p2 R ltac:(lia) S2 OC PN) as (y & IY & W). rewrite P2 in W.
    exists sc2, p2. split; [exact R|]. split; [exact S2|]. split; [exact P2|]. split; [exact AE|]. split; [intros E; destruct left0; discriminate|].
    intros left1 x1 E. apply app_inj_tail in E as [<- <-]. exists A, at0, pd, B, kids, y. split; [exact EL|]. split; [exact DB|]. split; [exact IY|]. split; [exact W|]. split; [exact OC|]. split; [exact PN|].
    intros m M L. destruct (Nat.le_gt_cases (n_start m) (n_start y)) as [|GR]; [auto|right]. pose proof (REST sc2 p2 R P2 m M L) as IM. destruct W as (_ & W2 & _). rewrite W2, <- P0 in GR.
    unfold pstarts in IM. rewrite Q2, Q1 in IM. cbn [zstarts] in IM. fold (pstarts p0) in IM. apply in_app_iff in IM as [IM|IM].
    + exfalso. destruct (run_runs U t cs void HU _ _ _ _ R0) as (_ & _ & ex0 & _ & _ & Y1 & Y2). cbn in Y1. rewrite Y1 in IM. rewrite Forall_forall in Y2. apply Y2 in IM. lia.
    + rewrite starts_eq, C2, C1 in IM. cbn [n_start n_children plus set_children app] in IM. destruct IM as [IM|IM]; [lia|]. apply starts_node in IM as (z & Z & ZE).
      assert (IZ : In z (doc_nodes roots)).
      { apply (stays_ended U t cs void roots HU HP z sc2 p2 R); auto; [lia|]. exists (cur p2). split; [left; reflexivity|]. rewrite C2, C1. exact Z. }
      assert (z = m) by (apply (same_start U d cs void roots HD HP); auto). subst z. eapply kids_over; eauto.
Qed.
End Rest.

(** ** The theorems *)
(** '</' was typed behind a sequence of parts. Whatever follows, the rest of the end tag of the innermost
    element left open is proposed, unless the '</' already begins it. *)
Theorem C88_end_tag : forall U cs void d l s left0 x ns roots providers lang p,
  good_soup U cs void l -> denotes U cs [] 0 l (length (soup_text l)) (left0 ++ [x]) ns ->
  textdoc_ok d -> d_text d = soup_text l ++ bs "</" ++ s -> parse U (d_text d) cs void = Ok roots -> offset_at d p = length (soup_text l) + 2 ->
  ~ ends_next U cs (d_text d) (length (soup_text l)) x ->
  do_tag_complete U d cs providers lang roots p = Ok (Some (x ++ if opt_beqN (nth_error s 0) (Some 62%N) then [] else bs ">")).
Proof.
  intros U cs void d l s left0 x ns roots providers lang p G D HD ET HP EO NE. assert (HU : Utf8 (d_text d)) by apply HD. set (e := length (soup_text l)) in *.
  destruct (node_facts _ _ _ _ _ HU HP) as (ks & HT & _).
  destruct (front_run U d cs void roots l (47%N :: s) HD ET HP G _ ns D) as (sc & pp & R & S & P & A & _ & F). fold e in P, A, F.
  destruct (F left0 x eq_refl) as (A0 & at0 & pd & B & kids & y & EL & DB & IY & (W1 & W2 & W3 & W4 & W5) & _ & _ & IN). clear F.
  set (sc3 := finish sc (pos sc) EndTagOpen None (pos sc + 2) AfterOpeningEndTag).
  set (p3 := mkP (cur pp) (parents pp) (Some (pos sc)) None (pending pp)). rewrite <- P in A.
  pose proof (at_len _ _ _ A) as LA. cbn [length] in LA.
  assert (R3 : run U (d_text d) cs void sc pp sc3 p3).
  { apply one; [exact HU|..]; cbn [tok finish pos sc3]; try discriminate; try lia.
    - apply O_end_tag_open; auto; [left; auto|eapply at_first; exact A|rewrite (at_nth _ _ _ _ A); reflexivity].
    - apply A.
    - reflexivity. }
  pose proof (run_trans _ _ _ _ _ _ _ _ _ _ R R3) as RC.
  assert (IT : In (token_of sc3) ks) by (apply (last_token U (d_text d) cs void ks HU HT _ sc3 p3 RC); cbn; lia).
  assert (FI : finished ks (offset_at d p)).
  { destruct (run_doc U (d_text d) cs void HU _ _ _ _ RC HT) as (m & l2 & -> & _ & F1 & F2). intros k K L.
    apply in_app_iff in K as [K|K].
    - apply in_map_iff in K as (z & <- & K). rewrite Forall_forall in F1. apply F1 in K. cbn. auto.
    - rewrite Forall_forall in F2. apply F2 in K. unfold sc3 in K. cbn in K. lia. }
  apply (C40_tag_complete U d cs void roots ks providers lang p _ HD HP HT FI). exists x. right. split.
  - exists (token_of sc3), y. split; auto. split; [reflexivity|]. split; [cbn; lia|]. split; auto.
    cbn [token_of tk_off sc3 finish tok_off]. rewrite P. split; auto.
    assert (LB : length (soup_text (A0 ++ [Opening x at0 pd])) <= e) by (pose proof (denotes_end _ _ _ _ _ _ _ _ DB); lia). split.
    { eexists. split; [exact W3|]. split; [exact LB|]. destruct W5 as [[W5 W6]|W5]; [|auto]. destruct (Nat.eq_dec (n_end y) e); [right; auto|left; lia]. }
    split.
    { intros E. apply NE. destruct (C15_end_tags _ _ _ _ _ _ _ HU HP IY E) as (_ & nm & Wr & SN).
      rewrite W1 in SN. unfold same_name in SN. destruct nm as [z|]; [|contradiction]. exists z, (n_end y). auto. }
    intros m M O NM. destruct (Nat.lt_ge_cases (n_start m) e) as [L|L].
    + destruct (IN m M L) as [Q|[_ Q]]; [exact Q|contradiction].
    + exfalso. destruct O as (s1 & O1 & O2 & _). pose proof (span U d cs void roots HD HP m M) as (_ & _ & SP). rewrite O1 in SP. destruct (n_ets m); lia.
  - f_equal. replace (nth_error (d_text d) (offset_at d p)) with (nth_error s 0); [reflexivity|].
    rewrite EO, <- P, (at_nth _ _ _ _ A). destruct s; reflexivity.
Qed.
Print Assumptions C88_end_tag.

(** When no element is left open, nothing is proposed. *)
Theorem C88_nothing_open : forall U cs void d l s ns roots providers lang p r,
  good_soup U cs void l -> denotes U cs [] 0 l (length (soup_text l)) [] ns ->
  textdoc_ok d -> d_text d = soup_text l ++ bs "</" ++ s -> parse U (d_text d) cs void = Ok roots -> offset_at d p = length (soup_text l) + 2 ->
  do_tag_complete U d cs providers lang roots p <> Ok (Some r).
Proof.
  intros U cs void d l s ns roots providers lang p r G D HD ET HP EO C. assert (HU : Utf8 (d_text d)) by apply HD. set (e := length (soup_text l)) in *.
  destruct (node_facts _ _ _ _ _ HU HP) as (ks & HT & _).
  destruct (front_run U d cs void roots l (47%N :: s) HD ET HP G _ ns D) as (sc & pp & R & S & P & A & IN & _). fold e in P, A, IN. specialize (IN eq_refl).
  set (sc3 := finish sc (pos sc) EndTagOpen None (pos sc + 2) AfterOpeningEndTag).
  set (p3 := mkP (cur pp) (parents pp) (Some (pos sc)) None (pending pp)). rewrite <- P in A.
  pose proof (at_len _ _ _ A) as LA. cbn [length] in LA.
  assert (R3 : run U (d_text d) cs void sc pp sc3 p3).
  { apply one; [exact HU|..]; cbn [tok finish pos sc3]; try discriminate; try lia.
    - apply O_end_tag_open; auto; [left; auto|eapply at_first; exact A|rewrite (at_nth _ _ _ _ A); reflexivity].
    - apply A.
    - reflexivity. }
  pose proof (run_trans _ _ _ _ _ _ _ _ _ _ R R3) as RC.
  assert (IT : In (token_of sc3) ks) by (apply (last_token U (d_text d) cs void ks HU HT _ sc3 p3 RC); cbn; lia).
  assert (FI : finished ks (offset_at d p)).
  { destruct (run_doc U (d_text d) cs void HU _ _ _ _ RC HT) as (m & l2 & -> & _ & F1 & F2). intros k K L.
    apply in_app_iff in K as [K|K].
    - apply in_map_iff in K as (z & <- & K). rewrite Forall_forall in F1. apply F1 in K. cbn. auto.
    - rewrite Forall_forall in F2. apply F2 in K. unfold sc3 in K. cbn in K. lia. }
  assert (TL : tiles 0 ks (length (d_text d))) by (eapply doc_tiles; eauto).
  assert (TK : forall k, In k ks -> tk_off k < tk_end k -> tk_end k = e + 2 -> k = token_of sc3).
  { intros k K KL E. eapply tiles_end_inj; eauto; cbn; lia. }
  apply (C40_tag_complete U d cs void roots ks providers lang p _ HD HP HT FI) in C as (x & [[(n & I & _ & _ & (k & K & TY & KL & SE) & SN & _) _]|[(k & y & K & TY & E & (Y1 & Y2 & _) & _) _]]).
  - rewrite SN, EO in SE. apply Some_inj in SE. rewrite (TK k K KL (eq_sym SE)) in TY. discriminate.
  - rewrite EO in E. destruct (end_open_token U d cs ks HD HT k K TY) as [KE _]. rewrite (TK k K ltac:(lia) E) in Y2. cbn [token_of tk_off sc3 finish tok_off] in Y2. rewrite P in Y2. destruct (Nat.lt_ge_cases (n_start y) e) as [L|L].
    + destruct (IN y Y1 L) as [_ Q]. contradiction.
    + destruct Y2 as (s1 & O1 & O2 & _). pose proof (span U d cs void roots HD HP y Y1) as (_ & _ & SP). rewrite O1 in SP. destruct (n_ets y); lia.
Qed.
Print Assumptions C88_nothing_open.

(** '>' was typed at the end of a start tag behind a sequence of parts. Whatever follows, the end tag of the
    element is proposed, unless it is the next thing. *)
Theorem C88_start_tag : forall U cs void d l name attrs pad s roots providers lang p,
  good_soup U cs void (l ++ [Opening name attrs pad]) -> ~ declared_void providers lang name ->
  textdoc_ok d -> d_text d = soup_text (l ++ [Opening name attrs pad]) ++ s -> parse U (d_text d) cs void = Ok roots ->
  offset_at d p = length (soup_text (l ++ [Opening name attrs pad])) ->
  ~ ends_next U cs (d_text d) (offset_at d p) name ->
  do_tag_complete U d cs providers lang roots p = Ok (Some (bs "$0</" ++ name ++ bs ">")).
Proof.
  intros U cs void d l name attrs pad s roots providers lang p [G NS] NVd HD ET HP EO NE. assert (HU : Utf8 (d_text d)) by apply HD.
  apply Forall_app in G as [GA G]. apply Forall_cons_iff in G as [(GN & NR & NV & GT & BP) _]. apply unsplit_app in NS as [NA _].
  destruct (C82_parse U cs void l (conj GA NA)) as (left & ns & DA & _).
  destruct (node_facts _ _ _ _ _ HU HP) as (ks & HT & _).
  pose proof (at_start _ HU) as A0.
  assert (TX : d_text d = soup_text l ++ start_tag name attrs pad (bs ">") ++ s).
  { rewrite ET. unfold soup_text. rewrite flat_map_app. cbn [flat_map part_text]. rewrite app_nil_r, <- app_assoc. reflexivity. }
  rewrite TX in A0 at 2. set (i0 := mkP (node_new 0 (length (d_text d))) [] None None None).
  destruct (soup_run U (d_text d) cs void HU _ _ _ _ _ _ DA GA NA (scanner_new 0 WithinContent) i0 _ eq_refl eq_refl A0) as (sc0 & p0 & R0 & S0 & P0 & _ & C0 & M0).
  { right. unfold start_tag. cbn [bs app]. eauto. }
  { exact I. }
  apply at_adv in A0; [|exact HU|eapply soup_utf8; eauto]. cbn [pos scanner_new Nat.add] in A0. rewrite <- P0 in A0.
  destruct (open_run_tok U (d_text d) cs void HU sc0 p0 name attrs pad _ (or_introl S0) A0 GN GT BP NV) as (sc1 & p1 & R1 & P1 & S1 & _ & _ & C1 & Q1 & L1 & L2). specialize (S1 NR).
  assert (LA1 : pos sc1 = length (soup_text (l ++ [Opening name attrs pad]))) by (rewrite P1, P0; unfold soup_text; rewrite flat_map_app; cbn [flat_map part_text]; rewrite app_nil_r, app_length; reflexivity).
  pose proof (run_trans _ _ _ _ _ _ _ _ _ _ R0 R1) as R.
  assert (LE : pos sc1 <= length (d_text d)) by (rewrite ET, app_length; lia).
  destruct (stays_open U (d_text d) cs void roots HU HP name (pos sc0) (pos sc1) sc1 p1 R LE S1) as (n & IN & W1 & W2 & W3 & W4 & W5).
  { rewrite C1. repeat split. }
  { rewrite Q1. discriminate. }
  apply (C40_start_tag U d cs void roots ks providers lang p name HD HP HT).
  exists n. split; [exact IN|]. split; [exact W1|]. split; [exact NVd|]. split.
  { exists (token_of sc1). split; [eapply last_token; eauto; lia|]. cbn. split; [auto|]. split; [lia|auto]. }
  split; [rewrite W3, EO, LA1; reflexivity|]. intros E. apply NE. destruct (C15_end_tags _ _ _ _ _ _ _ HU HP IN E) as (_ & nm & Wr & SN).
  rewrite W1 in SN. unfold same_name in SN. destruct nm as [z|]; [|contradiction]. exists z, (n_end n). auto.
Qed.
Print Assumptions C88_start_tag.

(** When nothing, a tag or a '>' comes next, the '</' does not begin an end tag with a name. *)
Theorem C88_no_name : forall U cs t o x s, Utf8 t -> at_ t o (bs "</" ++ s) -> s = [] \/ (exists r, s = 60%N :: r) \/ (exists r, s = 62%N :: r) -> ~ ends_next U cs t o x.
Proof.
  intros U cs t o x s HU A H (y & q & (_ & p & W & p1 & p2 & (c & l & SC & E & NC & _) & _) & _).
  apply at_adv in A; [|exact HU|apply ascii_utf8; reflexivity]. change (length (bs "</")) with 2 in A.
  cbn [forallb] in SC. apply andb_true_iff in SC as [SC _]. pose proof (encode1_nonempty c SC) as NE. rewrite encode_cons in E.
  assert (P : p = o + 2).
  { destruct W as (W1 & _ & W). destruct (Nat.eq_dec p (o + 2)); auto. destruct (W (o + 2)) as (b' & B1 & B2); [lia|lia|].
    destruct H as [-> | [[r ->] | [r ->]]]; [pose proof (at_len _ _ _ A) as LA; assert (Q : nth_error t (o + 2) <> None) by congruence; apply nth_error_Some in Q; cbn [length] in LA; lia|..];
      rewrite (at_first _ _ _ _ A) in B1; injection B1 as <-; discriminate. }
  subst p. destruct A as [A _]. unfold sub in E. rewrite A in E. destruct (encode1 c) as [|b r0] eqn:EC; [cbn in NE; lia|].
  assert (F : s = [] \/ exists r, s = b :: r).
  { destruct s as [|z s']; [auto|right]. destruct (p1 - (o + 2)); [discriminate|]. cbn [firstn app] in E. injection E as -> _. eauto. }
  destruct H as [-> | [[r ->] | [r ->]]]; [rewrite firstn_nil in E; discriminate|..]; (destruct F as [F|[r1 F]]; [discriminate|]; injection F as <- _;
    pose proof (encode1_ascii c _ _ SC EC ltac:(lia)) as Q; destruct Q as [Q _]; subst c; vm_compute in NC; discriminate).
Qed.
Print Assumptions C88_no_name.

(** ** Documents of this kind *)
(** What is proposed behind [t] when [s] follows. *)
Definition answer_in (t s : str) : res (option str) :=
  let d := utf16_doc (t ++ s) in
  do roots <- parse demo_unicode (d_text d) false html5_void;
  do_tag_complete demo_unicode d false [] (bs "html") roots (position_at d (length t)).
Example C88_answers :
  map (fun x => answer_in (fst x) (snd x))
    [(soup_text mixed ++ bs "</", bs "</div><i>x"); (soup_text mixed ++ bs "</", bs "></ul>"); (open_text ++ bs "</", bs "</li></ul>"); (open_text ++ bs "</b></", bs "<p class=");
     (open_text ++ bs "</ul></", bs "</div>"); (soup_text mixed ++ bs "<p>", bs "</b></ul>"); (soup_text mixed ++ bs "<p>", bs "</p>")] =
  [Ok (Some (bs "b>")); Ok (Some (bs "b")); Ok (Some (bs "b>")); Ok (Some (bs "li>")); Ok None; Ok (Some (bs "$0</p>")); Ok None].
Proof. vm_compute. reflexivity. Qed.
(** The first of them meets the conditions of the theorem. *)
Example C88_mixed : let d := utf16_doc (soup_text mixed ++ bs "</" ++ bs "</div><i>x") in exists roots,
  good_soup demo_unicode false html5_void mixed /\ denotes demo_unicode false [] 0 mixed (length (soup_text mixed)) ([] ++ [bs "b"]) mixed_nodes /\ textdoc_ok d /\
  parse demo_unicode (d_text d) false html5_void = Ok roots /\ offset_at d (position_at d (length (soup_text mixed) + 2)) = length (soup_text mixed) + 2 /\
  ~ ends_next demo_unicode false (d_text d) (length (soup_text mixed)) (bs "b").
Proof.
  set (d := utf16_doc (soup_text mixed ++ bs "</" ++ bs "</div><i>x")). cbn zeta. assert (HU : Utf8 (d_text d)) by (apply ascii_utf8; reflexivity).
  destruct (parse demo_unicode (d_text d) false html5_void) as [r| |] eqn:E; [|exfalso; vm_compute in E; discriminate..].
  exists r. split; [exact mixed_good|]. split; [exact (proj1 C82_mixed)|]. split; [apply C27_contract, HU|]. split; [reflexivity|]. split; [vm_compute; reflexivity|].
  apply (C88_no_name demo_unicode false (d_text d) _ (bs "b") (bs "</div><i>x") HU); [|right; left; eexists; reflexivity].
  split; [reflexivity|]. exists (soup_text mixed), (bs "</" ++ bs "</div><i>x"). repeat split; vm_compute; reflexivity.
Qed.
