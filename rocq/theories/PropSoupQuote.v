(** * C90: quotes in an unfinished start tag *)
From Verif Require Import SelectionRange PropTags PropSelection Base BaseFacts Stream Scanner ScannerFacts ScanStep ScanProps ScanShape ScanPanic Tree
  Parser ParseSpec ParseInv ParseOrder PropParse TreeFacts PropTree ParseEnd PropEnd TextDoc PropDoc
  SelAttr TokenLoop NodeScan DataManager PropData BuiltinData Entities Hover Completion PropTagComplete PropHover PropAnswers
  Render RenderFacts PropRender PropRename ScanComplete ParseKeep Lexing PropTokens PropScan PropTagDoc PropHoverTree PropTyped PropSoup PropSoupTyping PropSoupTags PropSoupInside PropSoupHover.
From Verif Require TokenRun.
From Coq Require Import ZifyBool ZifyNat ZifyN.

(** ** The scanner up to the '=' *)
(** A start tag as far as it is typed: its name, some attributes, and the name of one more with its '='. *)
Definition half_tag (name : str) (attrs : list hattr) (sp an : str) : str := bs "<" ++ name ++ render_attrs attrs ++ sp ++ an ++ bs "=".
Definition lex_half (name : str) (attrs : list hattr) (sp an : str) : list piece :=
  [(StartTagOpen, bs "<"); (StartTag, name)] ++ flat_map lex_attr attrs ++ [(Whitespace, sp); (AttributeName, an); (DelimiterAssign, bs "=")].
Section Half.
Variables (U : unicode) (t : str) (emit cs : bool).
Hypothesis HU : Utf8 t.
Notation trun := (TokenRun.trun U t emit cs).
Notation at_ := (at_ t).
Lemma half_run sc name attrs sp an s : content_like t sc -> at_ (pos sc) (half_tag name attrs sp an ++ s) ->
  good_name U name -> Forall good_attr attrs -> good_attr (mkHAttr sp an NoValue) ->
  exists sc1, trun sc (lex_half name attrs sp an) sc1 /\ pos sc1 = pos sc + length (half_tag name attrs sp an) /\ at_ (pos sc1) s.
Proof.
  intros CL A GN GA (G1 & G2 & G3 & G4 & _). cbn [ha_space ha_name] in *. unfold half_tag in A. rewrite <- !app_assoc in A.
  destruct (name_first_byte _ _ GN) as (c & r & En & Wc & N1 & N2 & N3 & N4 & N5). destruct (good_name_utf8 _ _ GN) as [Un NE].
  pose proof (at_len _ _ _ A) as L. rewrite !app_length in L. change (length (bs "<")) with 1 in L. change (length (bs "=")) with 1 in L.
  assert (A1 := A). apply at_adv in A1; [|auto|apply u_one; reflexivity]. change (length (bs "<")) with 1 in A1.
  set (s1 := finish sc (pos sc) StartTagOpen None (pos sc + 1) AfterOpeningStartTag).
  assert (Nx : nth_error t (pos sc + 1) = Some c) by (eapply at_first; rewrite En in A1; exact A1).
  assert (R1 : trun sc [(StartTagOpen, bs "<")] s1).
  { eapply TokenRun.one; eauto; try discriminate. apply O_start_tag_open; auto.
    + eapply at_first. exact A.
    + destruct A as [-> _]. rewrite En. cbn [app bs is_prefix]. destruct (N.eqb_spec (N_of_ascii "!") c) as [Q|Q]; auto.
      exfalso. apply N1. rewrite <- Q. reflexivity.
    + rewrite Nx. unfold SLASH; congruence.
    + destruct A1 as [-> _]. rewrite En. cbn [app m_doctype]. replace (N.eqb c 33) with false by lia. reflexivity. }
  (* what follows the name *)
  assert (EXe : exists e rest2, sp ++ an ++ bs "=" ++ s = e :: rest2 /\ is_ws e = true).
  { rewrite blank_ws in G1. destruct sp as [|e sp']; [congruence|]. exists e. eexists. split; [reflexivity|]. apply G1. cbn. auto. }
  destruct EXe as (e & rest2 & Ee & We). assert (Se : stops e) by (left; auto).
  assert (EXd : exists d rest', render_attrs attrs ++ e :: rest2 = d :: rest' /\ stops d).
  { destruct attrs as [|a attrs]; [exists e, rest2; auto|]. inversion GA as [|? ? Ga _]; subst. destruct Ga as (B1 & B2 & _).
    destruct (ha_space a) as [|d w] eqn:E; [tauto|]. rewrite blank_ws in B1. exists d.
    eexists. split; [cbn [render_attrs flat_map]; unfold render_attr at 1; rewrite E; reflexivity|]. left. apply B1. cbn; auto. }
  destruct EXd as (d & rest' & Ed & Sd). rewrite Ee, Ed in A1.
  pose proof (at_elem _ _ _ _ _ _ A1 GN Sd) as EN. pose proof (at_sub _ _ _ _ A1) as SB.
  assert (LN : 0 < length name) by (rewrite En; cbn; lia).
  set (s2 := finish (set_space false (set_last_tag (Some (norm U cs name)) (reset s1))) (pos s1) StartTag None (pos s1 + length name) WithinTag).
  assert (R2 : trun s1 [(StartTag, name)] s2).
  { eapply TokenRun.one; eauto; try discriminate. unfold s2. rewrite <- SB at 1. change (pos sc + 1) with (pos s1). apply O_start_tag; auto. }
  apply at_adv in A1; auto. rewrite <- Ed in A1. change (pos sc + 1 + length name) with (pos s2) in A1.
  destruct (TokenRun.attrs_run U t emit cs HU attrs s2 e rest2) as (s3 & R3 & I3 & P3 & _); auto.
  { left. reflexivity. }
  { intros ->. discriminate. }
  apply at_adv in A1; [|auto|apply attrs_utf8; auto]. rewrite <- Ee, <- P3 in A1.
  destruct (attr_first _ G4 G3) as (c0 & r0 & E0 & W0 & EQ0).
  destruct (TokenRun.tag_space U t emit cs HU s3 sp _ I3 A1 G1) as (s4 & R4 & P4 & H4 & S4 & _).
  { intros x y E. rewrite E0 in E. inversion E. subst x. auto. }
  specialize (H4 G2). apply at_adv in A1; [|auto|apply blank_utf8; auto]. rewrite <- P4 in A1.
  pose proof (at_attr _ _ _ _ _ A1 G4 G3 (or_intror eq_refl)) as AN. pose proof (made_of_utf8 _ _ G4) as Ua. pose proof (at_sub _ _ _ _ A1) as SB2.
  assert (NEa : 0 < length an) by (rewrite E0; cbn; lia).
  pose proof (at_len _ _ _ A1) as L1. rewrite app_length in L1. cbn [length] in L1.
  assert (A' := A1). rewrite E0 in A'. cbn [app] in A'.
  set (s5 := finish (set_space false (set_last_attr (Some (norm U cs an)) (set_st WithinTag s4))) (pos s4) AttributeName None (pos s4 + length an) AfterAttributeName).
  assert (R5 : trun s4 [(AttributeName, an)] s5).
  { eapply TokenRun.one; eauto; try discriminate.
    eapply O_in_tag; [lia|eapply TokenRun.enter; eauto; unfold TokenRun.in_tag in *; rewrite S4; auto|].
    unfold s5. rewrite <- SB2 at 1. change (pos s4) with (pos (set_st WithinTag s4)) at 1 2 3.
    apply TO_attr; auto. cbn [pos set_st]. eapply at_no_ws; eauto. }
  apply at_adv in A1; auto. change (pos s4 + length an) with (pos s5) in A1.
  set (s6 := finish s5 (pos s5) DelimiterAssign None (pos s5 + 1) BeforeAttributeValue).
  assert (R6 : trun s5 [(DelimiterAssign, bs "=")] s6).
  { eapply TokenRun.one; eauto; try discriminate. apply O_assign; auto. eapply at_first. exact A1. }
  apply (at_adv _ HU _ (bs "=")) in A1; [|apply u_one; reflexivity]. change (pos s5 + length (bs "=")) with (pos s6) in A1.
  exists s6. split; [|split; [|exact A1]].
  { change (trun sc ([(StartTagOpen, bs "<")] ++ [(StartTag, name)] ++ flat_map lex_attr attrs ++ [(Whitespace, sp)] ++ [(AttributeName, an)] ++ [(DelimiterAssign, bs "=")]) s6).
    repeat (eapply TokenRun.trun_trans; [eassumption|]). exact R6. }
  cbn [pos s6 s5 finish]. rewrite P4, P3. cbn [pos s2 s1 finish]. unfold half_tag. rewrite !app_length. change (length (bs "<")) with 1. change (length (bs "=")) with 1. lia.
Qed.
End Half.

(** ** The theorem *)
(** '=' was typed behind the name of an attribute, in a start tag behind a sequence of parts. Whatever follows, the
    configured quotes are proposed if the text ends there or white space or a '>' is next, and nothing otherwise. *)
Theorem C90_quotes : forall U cs void d l name attrs sp an s roots settings p v,
  good_soup U cs void l -> good_name U name -> Forall good_attr attrs -> good_attr (mkHAttr sp an NoValue) ->
  textdoc_ok d -> d_text d = soup_text l ++ half_tag name attrs sp an ++ s -> parse U (d_text d) cs void = Ok roots ->
  offset_at d p = length (soup_text l) + length (half_tag name attrs sp an) ->
  (do_quote_complete U d cs settings roots p = Ok (Some v) <->
   configured settings = Some v /\ (s = [] \/ exists b r, s = b :: r /\ (is_ws b = true \/ b = 62%N))).
Proof.
  intros U cs void d l name attrs sp an s roots settings p v [G NS] GN GA Ga HD ET HP EO. assert (HU : Utf8 (d_text d)) by apply HD.
  destruct (node_facts _ _ _ _ _ HU HP) as (ks & HT & _). assert (HT' := HT). unfold doc_tokens in HT'. apply bind_ok in HT' as ([ks0 z] & HT' & E). apply Ok_inj in E. subst ks0.
  pose proof (at_start _ HU) as A. rewrite ET in A at 2.
  destruct (soup_trun U (d_text d) true cs void HU l (scanner_new 0 WithinContent) _ G NS eq_refl A) as (s1 & T1 & Z1 & P1); [right; unfold half_tag; cbn [bs app]; eauto|].
  cbn [pos scanner_new Nat.add] in P1. apply at_adv in A; [|exact HU|eapply soup_utf8; eauto]. cbn [pos scanner_new Nat.add] in A. rewrite <- P1 in A.
  destruct (half_run U (d_text d) true cs HU s1 name attrs sp an s (or_introl Z1) A GN GA Ga) as (s2 & T2 & P2 & A2). rewrite P1 in P2. rewrite <- EO in P2.
  destruct (trun_front _ _ _ _ _ _ _ (TokenRun.trun_trans _ _ _ _ _ _ _ _ _ T1 T2) _ _ _ HT') as (ks1 & ks2 & f2 & -> & M & HT2). cbn [pos scanner_new] in M.
  assert (FI : finished (ks1 ++ ks2) (offset_at d p)).
  { intros k K LO. apply in_app_iff in K as [K|K].
    - apply (in_map seen) in K. rewrite M in K. unfold seen in K. apply place_in in K as (p' & w & q' & _ & W & _ & ->). destruct w; [congruence|cbn; lia].
    - exfalso. pose proof (tokens_from U (d_text d) cs HU _ _ _ _ HT2) as Q. rewrite Forall_forall in Q. apply Q in K. lia. }
  pose proof (at_len _ _ _ A2) as LA. rewrite P2 in *.
  assert (NX : (length (d_text d) <= offset_at d p \/ exists b, nth_error (d_text d) (offset_at d p) = Some b /\ (is_ws b = true \/ b = GT)) <->
    (s = [] \/ exists b r, s = b :: r /\ (is_ws b = true \/ b = 62%N))).
  { destruct s as [|b r].
    - cbn [length] in LA. split; intros _; left; [reflexivity|lia].
    - pose proof (at_first _ _ _ _ A2) as F. cbn [length] in LA. split.
      + intros [Q|(b' & B & Q)]; [lia|]. right. rewrite F in B. apply Some_inj in B. subst b'. exists b, r. auto.
      + intros [Q|(b' & r' & E & Q)]; [discriminate|]. injection E as <- <-. right. exists b. auto. }
  rewrite (C41_quote_complete U d cs void roots _ settings p v HD HP HT FI). split.
  - intros (C & k & _ & _ & _ & _ & K). split; [exact C|]. apply NX. exact K.
  - intros (C & K). split; [exact C|]. apply NX in K.
    assert (IP : In (AttributeName, offset_at d p - 1 - length an, offset_at d p - 1) (place 0 (filter written (flat_map lex_part l ++ lex_half name attrs sp an)))).
    { apply place_in. exists (flat_map lex_part l ++ [(StartTagOpen, bs "<"); (StartTag, name)] ++ flat_map lex_attr attrs ++ [(Whitespace, sp)]), an, [(DelimiterAssign, bs "=")].
      split; [unfold lex_half; rewrite <- !app_assoc; reflexivity|]. split; [apply Ga|].
      rewrite EO, !joined_app, joined_soup, joined_attrs. unfold half_tag. rewrite !app_length. cbn [joined flat_map snd]. rewrite !app_length. change (length (bs "<")) with 1. change (length (bs "=")) with 1. cbn [length]. lia. }
    rewrite <- M in IP. apply in_map_iff in IP as (k & SK & IK). unfold seen in SK. injection SK as K1 K2 K3. exists k. split; [apply in_or_app; auto|]. split; [exact K1|].
    assert (LO : 1 <= offset_at d p) by (rewrite EO; unfold half_tag; rewrite !app_length; change (length (bs "=")) with 1; lia).
    split; [lia|]. split; [|exact K]. rewrite K3.
    assert (TT : d_text d = (soup_text l ++ bs "<" ++ name ++ render_attrs attrs ++ sp ++ an) ++ bs "=" ++ s) by (rewrite ET; unfold half_tag; rewrite <- !app_assoc; reflexivity).
    rewrite TT, nth_error_app2; [|rewrite EO; unfold half_tag; rewrite !app_length; change (length (bs "=")) with 1; lia].
    match goal with |- nth_error _ ?x = _ => replace x with 0 end; [reflexivity|]. rewrite EO. unfold half_tag. rewrite !app_length. change (length (bs "=")) with 1. lia.
Qed.
Print Assumptions C90_quotes.

(** On a text the scanner cannot fail on (C58) the answer is otherwise that there is nothing to insert. *)
Theorem C90_nothing : forall U cs void d l name attrs sp an b r roots settings p,
  good_soup U cs void l -> good_name U name -> Forall good_attr attrs -> good_attr (mkHAttr sp an NoValue) ->
  textdoc_ok d -> d_text d = soup_text l ++ half_tag name attrs sp an ++ b :: r -> parse U (d_text d) cs void = Ok roots ->
  offset_at d p = length (soup_text l) + length (half_tag name attrs sp an) ->
  clean (d_text d) -> is_ws b = false -> b <> 62%N -> do_quote_complete U d cs settings roots p = Ok None.
Proof.
  intros U cs void d l name attrs sp an b r roots settings p G GN GA Ga HD ET HP EO CL W NB.
  destruct (C58_quote_complete U d cs void roots settings p HD CL HP) as ([v|] & E); [exfalso|exact E].
  apply (C90_quotes U cs void d l name attrs sp an (b :: r) roots settings p v G GN GA Ga HD ET HP EO) in E as (_ & [Q|(b' & r' & Q & K)]); [discriminate|].
  injection Q as <- <-. destruct K; congruence.
Qed.
Print Assumptions C90_nothing.

(** ** Documents of this kind *)
(** What is inserted behind [t] when [s] follows. *)
Definition quotes_in (st : option completion_settings) (t s : str) : res (option str) := qc_run st (t ++ s) (length t).
Definition half_demo : str := half_tag (bs "div") [mkHAttr (bs " ") (bs "id") NoValue] (bs " ") (bs "align").
Example C90_text : soup_text mixed ++ half_demo = bs "<ul><li>a<li>b</UL></p><b><br><div id align=".
Proof. reflexivity. Qed.
Example C90_answers :
  map (fun x => quotes_in (fst x) (soup_text mixed ++ half_demo) (snd x))
    [(None, []); (None, bs "></b>"); (None, bs " x='1</ul>"); (Some (mkCS false QSingle []), bs "></p></p>"); (Some (mkCS false QNone []), []); (None, bs "left>"); (None, bs "'"); (None, bs "<p>")] =
  [Ok (Some (bs """$1""")); Ok (Some (bs """$1""")); Ok (Some (bs """$1""")); Ok (Some (bs "'$1'")); Ok None; Ok None; Ok None; Ok None].
Proof. vm_compute. reflexivity. Qed.
(** The third of them meets the conditions of the theorem. *)
Example C90_mixed : let d := utf16_doc (soup_text mixed ++ half_demo ++ bs " x='1</ul>") in let o := length (soup_text mixed) + length half_demo in exists roots,
  good_soup demo_unicode false html5_void mixed /\ good_name demo_unicode (bs "div") /\ Forall good_attr [mkHAttr (bs " ") (bs "id") NoValue] /\ good_attr (mkHAttr (bs " ") (bs "align") NoValue) /\
  textdoc_ok d /\ parse demo_unicode (d_text d) false html5_void = Ok roots /\ offset_at d (position_at d o) = o.
Proof.
  set (d := utf16_doc (soup_text mixed ++ half_demo ++ bs " x='1</ul>")). cbn zeta. assert (HU : Utf8 (d_text d)) by (apply ascii_utf8; reflexivity).
  destruct (parse demo_unicode (d_text d) false html5_void) as [r| |] eqn:E; [|exfalso; vm_compute in E; discriminate..].
  exists r. split; [exact mixed_good|].
  split; [name|]. split; [apply Forall_cons; [attr_tac; exact I|apply Forall_nil]|]. split; [attr_tac; exact I|].
  split; [apply C27_contract, HU|]. split; [reflexivity|vm_compute; reflexivity].
Qed.
