(** * C91: the name of a tag being typed *)
From Verif Require Import SelectionRange PropTags PropSelection Base BaseFacts Stream Scanner ScannerFacts ScanStep ScanProps ScanShape ScanPanic Tree
  Parser ParseSpec ParseInv ParseOrder PropParse TreeFacts PropTree ParseEnd PropEnd TextDoc PropDoc
  SelAttr TokenLoop NodeScan DataManager PropData BuiltinData Entities Hover Completion PropTagComplete PropComplete PropEdits PropProposals PropAccept PropHover PropAnswers
  Render RenderFacts PropRender PropRename ScanComplete ParseKeep Lexing PropTokens PropScan PropTagDoc PropHoverTree PropTyped PropSoup PropSoupTyping PropSoupTags PropSoupInside PropSoupHover.
From Verif Require TokenRun.
From Coq Require Import ZifyBool ZifyNat ZifyN.

(** The name ends here: the text is over, or white space, '/', '<' or '>' comes next. *)
Definition name_over (s : str) : Prop := s = [] \/ exists b r, s = b :: r /\ (is_ws b = true \/ In b [47; 60; 62]%N).
Lemma over_char U b : is_ws b = true \/ In b [47; 60; 62]%N -> (b < 128)%N /\ name_char U b = false.
Proof.
  intros H. assert (L : (b < 128)%N) by (cbn in H; unfold is_ws in H; lia). split; [exact L|].
  unfold name_char, name_start_char, is_word. replace (b <? 128)%N with true by lia.
  unfold ascii_alnum, ascii_alpha, ascii_digit, ascii_upper_letter, ascii_lower_letter. cbn in H. unfold is_ws in H. lia.
Qed.
Lemma run_over U l s : (forall c, In c l -> scalar c = true /\ name_char U c = true) -> name_over s -> char_run (name_char U) (encode l ++ s) = length (encode l).
Proof.
  intros H [-> |(b & r & -> & B)].
  - rewrite app_nil_r. induction l as [|c l IH]; [reflexivity|]. destruct (H c (or_introl eq_refl)) as [Sc N].
    rewrite encode_cons, char_run_encode1 by auto. rewrite N, IH, app_length; auto. intros x I. apply H. cbn; auto.
  - destruct (over_char U b B). apply char_run_stop; auto.
Qed.
Lemma elem_over U t p n s : at_ t p (n ++ s) -> good_name U n -> name_over s -> elem_name U t p (p + length n).
Proof.
  intros A G S. destruct (good_name_utf8 _ _ G) as [Gu NE]. pose proof (at_len _ _ _ A) as L. rewrite app_length in L.
  destruct G as (c & r & C & F & (l & -> & M) & E). assert (A' := A). destruct A' as [A1 A2]. repeat split.
  - destruct n; [tauto|cbn; lia].
  - lia.
  - apply Bd_boundary; auto.
  - rewrite A1. unfold m_element_name.
    assert (D : decode1 (n ++ s) = Some (c, length (encode1 c))).
    { rewrite E, <- app_assoc. clear - C. apply encode1_shape in C. destruct C; subst; cbn [app length decode1].
      - replace (c <? 128)%N with true by lia. auto.
      - replace (a <? 128)%N with false by lia. replace (a <? 224)%N with true by lia. auto.
      - replace (a <? 128)%N with false by lia. replace (a <? 224)%N with false by lia. replace (a <? 240)%N with true by lia. auto.
      - replace (a <? 128)%N with false by lia. replace (a <? 224)%N with false by lia. replace (a <? 240)%N with false by lia. auto. }
    rewrite D, (name_start_start _ _ F). rewrite E, <- app_assoc, skipn_app, skipn_all, Nat.sub_diag. cbn [skipn app].
    rewrite run_over; [rewrite app_length; do 2 f_equal; lia| |exact S]. intros x I. destruct (M x I). auto using name_rest_char.
Qed.

Lemma name_run U t emit cs sc name s : Utf8 t -> content_like t sc -> at_ t (pos sc) (bs "<" ++ name ++ s) -> good_name U name -> name_over s ->
  exists sc1, TokenRun.trun U t emit cs sc [(StartTagOpen, bs "<"); (StartTag, name)] sc1 /\ pos sc1 = pos sc + 1 + length name.
Proof.
  intros HU CL A GN NO. destruct (name_first_byte _ _ GN) as (c & r & En & Wc & N1 & N2 & N3 & N4 & N5). destruct (good_name_utf8 _ _ GN) as [Un NE].
  pose proof (at_len _ _ _ A) as L. rewrite !app_length in L. change (length (bs "<")) with 1 in L.
  assert (A1 := A). apply at_adv in A1; [|auto|apply u_one; reflexivity]. change (length (bs "<")) with 1 in A1.
  set (s1 := finish sc (pos sc) StartTagOpen None (pos sc + 1) AfterOpeningStartTag).
  assert (Nx : nth_error t (pos sc + 1) = Some c) by (eapply at_first; rewrite En in A1; exact A1).
  assert (R1 : TokenRun.trun U t emit cs sc [(StartTagOpen, bs "<")] s1).
  { eapply TokenRun.one; eauto; try discriminate. apply O_start_tag_open; auto.
    + eapply at_first. exact A.
    + destruct A as [-> _]. rewrite En. cbn [app bs is_prefix]. destruct (N.eqb_spec (N_of_ascii "!") c) as [Q|Q]; auto.
      exfalso. apply N1. rewrite <- Q. reflexivity.
    + rewrite Nx. unfold SLASH; congruence.
    + destruct A1 as [-> _]. rewrite En. cbn [app m_doctype]. replace (N.eqb c 33) with false by lia. reflexivity. }
  pose proof (elem_over _ _ _ _ _ A1 GN NO) as EN. pose proof (at_sub _ _ _ _ A1) as SB.
  assert (LN : 0 < length name) by (rewrite En; cbn; lia).
  set (s2 := finish (set_space false (set_last_tag (Some (norm U cs name)) (reset s1))) (pos s1) StartTag None (pos s1 + length name) WithinTag).
  exists s2. split; [|reflexivity]. change [(StartTagOpen, bs "<"); (StartTag, name)] with ([(StartTagOpen, bs "<")] ++ [(StartTag, name)]).
  eapply TokenRun.trun_trans; [exact R1|]. eapply TokenRun.one; eauto; try discriminate. unfold s2. rewrite <- SB at 1. change (pos sc + 1) with (pos s1). apply O_start_tag; auto.
Qed.

(** The cursor is in or behind a name that is being typed behind a '<', behind a sequence of parts. Whatever follows
    the name, there is an answer: all tags of the data in use, each to replace the name and nothing else. *)
Theorem C91_name : forall U cs void d l name s roots md parts providers lang ents settings order p,
  good_soup U cs void l -> good_name U name -> name_over s ->
  textdoc_ok d -> d_text d = soup_text l ++ bs "<" ++ name ++ s -> parse U (d_text d) cs void = Ok roots ->
  let a := length (soup_text l) + 1 in a < offset_at d p <= a + length name ->
  exists items, do_complete U d cs md parts providers lang ents settings order roots p = Ok items /\
    all_tags d providers lang settings a (a + length name) items.
Proof.
  intros U cs void d l name s roots md parts providers lang ents settings order p [G NS] GN NO HD ET HP a X. assert (HU : Utf8 (d_text d)) by apply HD.
  destruct (node_facts _ _ _ _ _ HU HP) as (ks & HT & _). assert (HT' := HT). unfold doc_tokens in HT'. apply bind_ok in HT' as ([ks0 z] & HT' & E). apply Ok_inj in E. subst ks0.
  pose proof (at_start _ HU) as A. rewrite ET in A at 2.
  destruct (soup_trun U (d_text d) true cs void HU l (scanner_new 0 WithinContent) _ G NS eq_refl A) as (s1 & T1 & Z1 & P1); [right; cbn [bs app]; eauto|].
  cbn [pos scanner_new Nat.add] in P1. apply at_adv in A; [|exact HU|eapply soup_utf8; eauto]. cbn [pos scanner_new Nat.add] in A. rewrite <- P1 in A.
  destruct (name_run U (d_text d) true cs s1 name s HU (or_introl Z1) A GN NO) as (s2 & T2 & P2).
  destruct (trun_front _ _ _ _ _ _ _ (TokenRun.trun_trans _ _ _ _ _ _ _ _ _ T1 T2) _ _ _ HT') as (ks1 & ks2 & f2 & -> & M & HT2). cbn [pos scanner_new] in M.
  assert (IP : In (StartTag, a, a + length name) (map seen ks1)).
  { rewrite M. apply place_in. exists (flat_map lex_part l ++ [(StartTagOpen, bs "<")]), name, []. split; [rewrite <- app_assoc; reflexivity|]. split; [apply (good_name_utf8 _ _ GN)|].
    rewrite !joined_app, joined_soup, !app_length. cbn [joined flat_map snd]. rewrite app_nil_r. change (length (bs "<")) with 1. split; reflexivity. }
  apply in_map_iff in IP as (k & SK & IK). unfold seen in SK. injection SK as K1 K2 K3.
  destruct (C50_tag_names U d cs void roots (ks1 ++ ks2) md parts providers lang ents settings order p k HD HP HT) as (items & C & I); [apply in_or_app; auto|exact K1|lia|].
  exists items. split; [exact C|]. rewrite K2, K3 in I. exact I.
Qed.
Print Assumptions C91_name.

(** Accepting one of them puts its label in the place of the name; everything else stays. *)
Theorem C91_accepted : forall U cs void d l name s roots md parts providers lang ents settings order p items i,
  good_soup U cs void l -> good_name U name -> name_over s ->
  textdoc_ok d -> d_text d = soup_text l ++ bs "<" ++ name ++ s -> parse U (d_text d) cs void = Ok roots ->
  length (soup_text l) + 1 < offset_at d p <= length (soup_text l) + 1 + length name ->
  do_complete U d cs md parts providers lang ents settings order roots p = Ok items -> In i items ->
  accepted d i (soup_text l ++ bs "<" ++ ci_label i ++ s).
Proof.
  intros U cs void d l name s roots md parts providers lang ents settings order p items i G GN NO HD ET HP X C I. assert (HU : Utf8 (d_text d)) by apply HD.
  destruct (C91_name U cs void d l name s roots md parts providers lang ents settings order p G GN NO HD ET HP X) as (items' & C' & A).
  rewrite C in C'. apply Ok_inj in C'. subst items'. apply A in I as (q & td & _ & _ & ->).
  pose proof (at_start _ HU) as B. rewrite ET in B at 2. apply at_adv in B; [|exact HU|eapply soup_utf8; apply G]. cbn [Nat.add] in B.
  apply at_adv in B; [|exact HU|apply ascii_utf8; reflexivity]. change (length (bs "<")) with 1 in B. assert (B1 : Bd (d_text d) (length (soup_text l) + 1)) by apply B.
  apply at_adv in B; [|exact HU|apply (good_name_utf8 _ _ GN)]. assert (B2 : Bd (d_text d) (length (soup_text l) + 1 + length name)) by apply B.
  eexists _, _, _. split; [reflexivity|]. split; [discriminate|]. split; [intros _; reflexivity|]. unfold edited. cbn [map fst snd tag_proposal ci_label].
  destruct (range_text d _ _ HD B1 B2) as (_ & -> & ->). rewrite (replace_one (soup_text l ++ bs "<") name s).
  - rewrite <- !app_assoc. reflexivity.
  - rewrite ET, <- !app_assoc. reflexivity.
  - rewrite app_length. reflexivity.
  - rewrite app_length. reflexivity.
Qed.
Print Assumptions C91_accepted.

(** ** Documents of this kind *)
(** A name half typed, with a tag and text behind it. *)
Definition typing : str := soup_text mixed ++ bs "<di" ++ bs "<p>x</ul>".
Definition names_at (t : str) (o : nat) : res (list (str * option (range * str))) :=
  let d := utf16_doc t in
  do roots <- parse demo_unicode (d_text d) false html5_void;
  do items <- do_complete demo_unicode d false false [] [edits_provider] (bs "html") [] None (fun l => l) roots (position_at d o);
  Ok (map (fun i => (ci_label i, ci_edit i)) items).
Example C91_text : typing = bs "<ul><li>a<li>b</UL></p><b><br><di<p>x</ul>".
Proof. reflexivity. Qed.
(** In the name and behind it, at the end of the document as well. *)
Example C91_answers : let r a e := mkRange (mkPos 0 a) (mkPos 0 e) in
  map (fun x => names_at (fst x) (snd x)) [(typing, 32); (typing, 33); (soup_text mixed ++ bs "<i", 32)] =
  [Ok [(bs "p", Some (r 31 33, bs "p")); (bs "input", Some (r 31 33, bs "input"))]; Ok [(bs "p", Some (r 31 33, bs "p")); (bs "input", Some (r 31 33, bs "input"))];
   Ok [(bs "p", Some (r 31 32, bs "p")); (bs "input", Some (r 31 32, bs "input"))]].
Proof. vm_compute. reflexivity. Qed.
(** The first two meet the conditions of the theorems. *)
Example C91_mixed : let d := utf16_doc typing in exists roots,
  good_soup demo_unicode false html5_void mixed /\ good_name demo_unicode (bs "di") /\ name_over (bs "<p>x</ul>") /\ textdoc_ok d /\
  parse demo_unicode (d_text d) false html5_void = Ok roots /\ map (fun o => offset_at d (position_at d o)) [32; 33] = [32; 33] /\ length (soup_text mixed) + 1 = 31.
Proof.
  set (d := utf16_doc typing). cbn zeta. assert (HU : Utf8 (d_text d)) by (apply ascii_utf8; reflexivity).
  destruct (parse demo_unicode (d_text d) false html5_void) as [r| |] eqn:E; [|exfalso; vm_compute in E; discriminate..].
  exists r. split; [exact mixed_good|]. split; [name|]. split; [right; eexists _, _; split; [reflexivity|right; cbn; auto]|].
  split; [apply C27_contract, HU|]. split; [reflexivity|]. split; vm_compute; reflexivity.
Qed.
