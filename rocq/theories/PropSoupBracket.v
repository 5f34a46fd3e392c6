(** * C93: proposals behind a '<', whatever follows *)
From Verif Require Import SelectionRange PropTags PropSelection Base BaseFacts Stream Scanner ScannerFacts ScanStep ScanProps ScanShape ScanPanic Tree
  Parser ParseSpec ParseInv ParseOrder PropParse TreeFacts PropTree ParseEnd PropEnd TextDoc PropDoc
  SelAttr TokenLoop NodeScan DataManager PropData BuiltinData Entities Hover Completion PropTagComplete PropHover PropComplete PropEdits PropAnswers PropProposals
  Render RenderFacts PropRender PropRename ScanComplete ParseKeep Lexing PropTokens PropTagDoc PropHoverTree PropTyped PropSoup PropSoupTyping PropSoupComplete PropSoupInside PropSoupHover.
From Verif Require TokenRun.
From Coq Require Import ZifyBool ZifyNat ZifyN.

(** Behind the '<' comes neither '/', '!' nor another '<'. *)
Definition tag_may_begin (s : str) : Prop := forall b r, s = b :: r -> ~ In b [47; 33; 60]%N.

(** '<' was typed behind a sequence of parts. Whatever follows, completion proposes all tags, each in place of the name that follows,
    if one does, on the first line the document type, and the end tag of the innermost element left open, if there is one. *)
Theorem C93_bracket : forall U cs void d l s left ns roots md parts providers lang ents settings order p items,
  good_soup U cs void l -> denotes U cs [] 0 l (length (soup_text l)) left ns -> tag_may_begin s ->
  textdoc_ok d -> d_text d = soup_text l ++ bs "<" ++ s -> parse U (d_text d) cs void = Ok roots -> offset_at d p = length (soup_text l) + 1 ->
  do_complete U d cs md parts providers lang ents settings order roots p = Ok items ->
  let o := offset_at d p in
  exists b doctype tags close, name_from U (d_text d) o b /\ items = doctype ++ tags ++ close /\
    (line p = 0 -> exists i, doctype = [i] /\ ci_label i = bs "!DOCTYPE" /\ ci_edit i = Some (range_at d o b, bs "!DOCTYPE html>")) /\
    (line p <> 0 -> doctype = []) /\
    all_tags d providers lang settings o b tags /\
    (left = [] -> close = []) /\
    (forall left0 x, left = left0 ++ [x] -> exists A B i, innermost_left U cs l left0 x A B /\ close = [i] /\ PropProposals.closes d o (length (soup_text A)) o b x i).
Proof.
  intros U cs void d l s left ns roots md parts providers lang ents settings order p items G D MB HD ET HP EO C o. assert (HU : Utf8 (d_text d)) by apply HD. set (e := length (soup_text l)) in *.
  destruct (front_run U d cs void roots l s HD ET HP G _ ns D) as (sc & pp & _ & _ & _ & AE & FN & F). fold e in AE, FN, F.
  pose proof (at_len _ _ _ AE) as LA. cbn [length] in LA.
  assert (NB : forall b, In b [47; 33; 60]%N -> nth_error (d_text d) (e + 1) <> Some b).
  { intros b IB Q. rewrite (at_nth _ _ _ _ AE) in Q. destruct s as [|b' r]; [discriminate|]. cbn in Q. injection Q as ->. exact (MB b r eq_refl IB). }
  (* the token *)
  destruct (node_facts _ _ _ _ _ HU HP) as (ks & HT & _). assert (HT' := HT). unfold doc_tokens in HT'. apply bind_ok in HT' as ([ks0 z] & HT' & E). apply Ok_inj in E. subst ks0.
  pose proof (at_start _ HU) as A. rewrite ET in A at 2.
  destruct (soup_trun U (d_text d) true cs void HU l (scanner_new 0 WithinContent) _ (proj1 G) (proj2 G) eq_refl A) as (s1 & T1 & Z1 & P1); [right; cbn [bs app]; eauto|].
  cbn [pos scanner_new Nat.add] in P1. fold e in P1. clear A.
  set (s2 := finish s1 (pos s1) StartTagOpen None (pos s1 + 1) AfterOpeningStartTag). assert (A := AE). rewrite <- P1 in A.
  assert (T2 : TokenRun.trun U (d_text d) true cs s1 [(StartTagOpen, bs "<")] s2).
  { apply TokenRun.one with (r := s); try discriminate; try reflexivity; [exact HU| |exact A]. apply O_start_tag_open.
    - left; auto.
    - eapply at_first. exact A.
    - destruct A as [-> _]. destruct s as [|b r]; [reflexivity|]. cbn [bs is_prefix]. change (N_of_ascii "!") with 33%N.
      destruct (N.eqb_spec 33 b) as [Q|Q]; [exfalso; subst b; eapply MB; [reflexivity|right; left; reflexivity]|]. rewrite andb_false_r. reflexivity.
    - rewrite P1. apply NB. left. reflexivity.
    - apply (at_adv _ HU _ (bs "<")) in A; [|apply u_one; reflexivity]. change (length (bs "<")) with 1 in A. destruct A as [-> _]. destruct s as [|b r]; [reflexivity|]. cbn [m_doctype].
      destruct (N.eqb_spec b 33) as [Q|Q]; [exfalso; subst b; eapply MB; [reflexivity|right; left; reflexivity]|reflexivity]. }
  destruct (trun_front _ _ _ _ _ _ _ (TokenRun.trun_trans _ _ _ _ _ _ _ _ _ T1 T2) _ _ _ HT') as (ks1 & ks2 & f2 & -> & M & _). cbn [pos scanner_new] in M.
  assert (IP : In (StartTagOpen, e, e + 1) (map seen ks1)).
  { rewrite M. apply place_in. exists (flat_map lex_part l), (bs "<"), []. split; [reflexivity|]. split; [discriminate|]. rewrite joined_soup. split; reflexivity. }
  apply in_map_iff in IP as (k & SK & IK). unfold seen in SK. injection SK as K1 K2 K3.
  destruct (C69_open_bracket U d cs void roots (ks1 ++ ks2) md parts providers lang ents settings order p k items HD HP HT ltac:(apply in_or_app; auto) K1 ltac:(lia) C)
    as (n & b & dt & tags & close & N1 & N2 & NF & -> & DT1 & DT2 & TG & CL1 & CL2). fold o in NF, DT1, TG, CL1, CL2. rewrite K2 in N2.
  exists b, dt, tags, close. split; [exact NF|]. split; [reflexivity|]. split; [intros L0; destruct (DT1 L0) as (i & I1 & I2 & I3 & _); exists i; auto|]. split; [exact DT2|]. split; [exact TG|].
  assert (SN := span U d cs void roots HD HP n N1). destruct SN as (SN1 & SN2 & _).
  assert (IB : forall m, In m (doc_nodes roots) -> inside n m -> n_start m < e /\ e < n_end m) by
    (intros m Im IM; destruct (inside_bounds U d cs void roots HD HP n m Im IM) as (B1 & B2 & _); lia).
  split.
  - intros E0. apply CL2. intros y x (Y1 & Y2 & _). destruct (IB y Y1 Y2) as [Y3 Y4]. destruct (FN E0 y Y1 Y3). lia.
  - intros left0 x E0. destruct (F left0 x E0) as (A0 & at0 & pd & B & kids & y & EL & DB & IY & (W1 & W2 & W3 & W4 & W5) & _ & _ & IN).
    assert (LB : length (soup_text (A0 ++ [Opening x at0 pd])) <= e) by (pose proof (denotes_end _ _ _ _ _ _ _ _ DB); lia).
    assert (SY := span U d cs void roots HD HP y IY). destruct SY as (SY1 & SY2 & SY3). rewrite W3 in SY3.
    assert (LY : n_start y < e) by (destruct (n_ets y); lia).
    assert (EW : forall m i, In m (doc_nodes roots) -> n_ets m = Some i -> nth_error (d_text d) i = Some 60%N /\ nth_error (d_text d) (i + 1) = Some 47%N).
    { intros m i Im Q. destruct (C15_end_tags _ _ _ _ _ _ _ HU HP Im Q) as (_ & nm & (SB & _) & _).
      unfold sub in SB. replace (i + 2 - i) with 2 in SB by lia. pose proof (skipn_nth_error (d_text d) i 0) as X0. pose proof (skipn_nth_error (d_text d) i 1) as X1. rewrite Nat.add_0_r in X0. rewrite <- X0, <- X1.
      destruct (skipn i (d_text d)) as [|c1 [|c2 r]]; try discriminate. cbn in SB. injection SB as -> ->. split; reflexivity. }
    assert (NI : forall m i, In m (doc_nodes roots) -> n_ets m = Some i -> i <> e /\ i <> e + 1).
    { intros m i Im Q. destruct (EW m i Im Q) as [Q1 Q2]. split; intros ->; [apply (NB 47%N) in Q2; [auto|left; reflexivity]|apply (NB 60%N) in Q1; [auto|right; right; left; reflexivity]]. }
    assert (EY : e < n_end y).
    { destruct W5 as [[W5 W6]|W5]; [|exact W5]. destruct (Nat.eq_dec (n_end y) e) as [Q|Q]; [exfalso|lia].
      destruct (C16_only_end_tags U (d_text d) cs void _ roots HU HT HP y IY) as [_ Q2]. destruct (Q2 W5 ltac:(congruence)) as [Q3|(m & Im & Q3)]; [lia|].
      rewrite Q in Q3. destruct (NI m e Im Q3). auto. }
    assert (NY : inside n y).
    { destruct (lam U d cs void roots HD HP n y N1 IY) as [Q|[Q|[Q|[Q|Q]]]]; auto; exfalso.
      - subst n. lia.
      - apply (inside_bounds U d cs void roots HD HP) in Q; auto. lia.
      - lia.
      - lia. }
    destruct (CL1 y x) as (i & I1 & I2).
    { split; [exact IY|]. split; [exact NY|]. split; [exact W1|]. split.
      - destruct (n_closed y) eqn:CY; [right|left; exact CY]. destruct (n_ets y) as [i|] eqn:EI.
        + exists i. split; [reflexivity|]. pose proof (W4 i eq_refl). destruct (NI y i IY EI). lia.
        + exfalso. destruct (C17_closed _ _ _ _ _ _ _ HU HT HP IY) as (_ & Q & _). destruct (Q CY EI) as [Q1 _]. rewrite W3 in Q1. injection Q1 as Q1. lia.
      - intros m M1 M2 _ _. destruct (IB m M1 M2) as [M3 M4]. destruct (IN m M1 M3) as [Q|[Q _]]; [exact Q|lia]. }
    exists A0, B, i. split; [exists at0, pd, kids; auto|]. split; [exact I1|]. rewrite W2 in I2. exact I2.
Qed.
Print Assumptions C93_bracket.

(** ** Documents of this kind *)
Definition bracket_in (t s : str) : res (list (str * option str)) :=
  let d := utf16_doc (t ++ s) in
  do roots <- parse demo_unicode (d_text d) false html5_void;
  do items <- do_complete demo_unicode d false false [] [edits_provider] (bs "html") [] None (fun l => l) roots (position_at d (length t));
  Ok (map (fun i => (ci_label i, option_map snd (ci_edit i))) items).
Example C93_answers :
  map (fun x => bracket_in (soup_text (fst x) ++ bs "<") (snd x)) [(mixed, bs "p>x</b></ul>"); (mixed, bs " x</b></ul>"); (mixed ++ [Closing (bs "b") []], bs "q")] =
  let open := [(bs "!DOCTYPE", Some (bs "!DOCTYPE html>")); (bs "p", Some (bs "p")); (bs "input", Some (bs "input"))] in
  [Ok (open ++ [(bs "/b", Some (bs "/b"))]); Ok (open ++ [(bs "/b", Some (bs "/b>"))]); Ok open].
Proof. vm_compute. reflexivity. Qed.
(** The first of them meets the conditions of the theorem. *)
Example C93_mixed : let d := utf16_doc (soup_text mixed ++ bs "<" ++ bs "p>x</b></ul>") in let p := position_at d (length (soup_text mixed) + 1) in exists roots items,
  good_soup demo_unicode false html5_void mixed /\ denotes demo_unicode false [] 0 mixed (length (soup_text mixed)) ([] ++ [bs "b"]) mixed_nodes /\ tag_may_begin (bs "p>x</b></ul>") /\ textdoc_ok d /\
  parse demo_unicode (d_text d) false html5_void = Ok roots /\ offset_at d p = length (soup_text mixed) + 1 /\ line p = 0 /\
  do_complete demo_unicode d false false [] [edits_provider] (bs "html") [] None (fun l => l) roots p = Ok items.
Proof.
  set (d := utf16_doc (soup_text mixed ++ bs "<" ++ bs "p>x</b></ul>")). set (p := position_at d (length (soup_text mixed) + 1)). cbn zeta.
  assert (HU : Utf8 (d_text d)) by (apply ascii_utf8; reflexivity).
  assert (E : match (do r <- parse demo_unicode (d_text d) false html5_void; do_complete demo_unicode d false false [] [edits_provider] (bs "html") [] None (fun l => l) r p) with Ok _ => true | _ => false end = true) by (vm_compute; reflexivity).
  destruct (parse demo_unicode (d_text d) false html5_void) as [roots| |] eqn:HP; [|discriminate..]. cbn [bind] in E.
  destruct (do_complete demo_unicode d false false [] [edits_provider] (bs "html") [] None (fun l => l) roots p) as [items| |] eqn:C; [|discriminate..].
  exists roots, items. split; [exact mixed_good|]. split; [exact (proj1 C82_mixed)|]. split; [intros b r Q; injection Q as <- _; cbn; intuition discriminate|].
  split; [apply C27_contract, HU|]. split; [reflexivity|]. split; [vm_compute; reflexivity|]. split; [vm_compute; reflexivity|exact C].
Qed.
