(** * C92, C93: there is an answer behind '</' and behind '<', whatever follows *)
From Verif Require Import SelectionRange PropTags PropSelection Base BaseFacts Stream Scanner ScannerFacts ScanStep ScanProps ScanShape ScanPanic Tree
  Parser ParseSpec ParseInv ParseOrder PropParse TreeFacts PropTree ParseEnd PropEnd TextDoc PropDoc
  SelAttr TokenLoop NodeScan DataManager PropData BuiltinData Entities Hover Completion PropTagComplete PropHover PropComplete PropEdits PropAnswers PropProposals
  Render RenderFacts PropRender PropRename ScanComplete ParseKeep Lexing PropTokens PropTagDoc PropHoverTree PropTyped PropSoup PropSoupTyping PropSoupComplete PropSoupInside PropSoupHover PropSoupSlash PropSoupBracket.
From Verif Require TokenRun.
From Coq Require Import ZifyBool ZifyNat ZifyN.

(** Behind a '<' or '/' that does not belong to the value of an attribute there is an answer (C58). *)
Lemma answers_here U d cs void roots ks k c md parts providers lang ents settings order p : textdoc_ok d -> parse U (d_text d) cs void = Ok roots ->
  doc_tokens U (d_text d) cs = Ok ks -> In k ks -> tk_type k <> AttributeValue -> tk_off k < offset_at d p <= tk_end k ->
  nth_error (d_text d) (offset_at d p - 1) = Some c -> c = 47%N \/ c = 60%N ->
  exists items, do_complete U d cs md parts providers lang ents settings order roots p = Ok items.
Proof.
  intros HD HP HT I T K C CC. apply (C58_completion U d cs void roots _ md parts providers lang ents settings order p HD HP HT).
  - intros a LA H. destruct (Nat.eq_dec a (offset_at d p)) as [->|NE]; [lia|exfalso]. destruct (H (offset_at d p - 1)) as (c' & C' & Q); [lia|].
    rewrite C in C'. apply Some_inj in C'. subst c'. unfold alnum in Q. lia.
  - intros k' I' (Q1 & Q2 & _). pose proof (doc_tiles U (d_text d) cs _ (do_utf8 d HD) HT) as TL.
    assert (k' = k); [|congruence]. eapply (tiles_cover_inj _ _ _ k' k (offset_at d p - 1)); [exact TL|exact I'|exact I|lia..].
Qed.

(** '</' was typed behind a sequence of parts. Whatever follows, completion answers. The examples of C92 meet the conditions. *)
Theorem C92_answers : forall U cs void d l s roots md parts providers lang ents settings order p,
  good_soup U cs void l -> textdoc_ok d -> d_text d = soup_text l ++ bs "</" ++ s -> parse U (d_text d) cs void = Ok roots -> offset_at d p = length (soup_text l) + 2 ->
  exists items, do_complete U d cs md parts providers lang ents settings order roots p = Ok items.
Proof.
  intros U cs void d l s roots md parts providers lang ents settings order p G HD ET HP EO. destruct (C82_parse U cs void l G) as (left & ns & D & _).
  destruct (slash_front U d cs void roots l s left ns HD ET HP G D) as (ks & k & HT & K & KT & KO & KE & _).
  eapply (answers_here U d cs void roots ks k 47%N); eauto; [congruence|lia|].
  rewrite ET, nth_error_app2 by lia. replace (offset_at d p - 1 - length (soup_text l)) with 1 by lia. reflexivity.
Qed.
Print Assumptions C92_answers.

(** So it does behind a '<' that may begin a tag. The examples of C93 meet the conditions. *)
Theorem C93_answers : forall U cs void d l s roots md parts providers lang ents settings order p,
  good_soup U cs void l -> tag_may_begin s -> textdoc_ok d -> d_text d = soup_text l ++ bs "<" ++ s -> parse U (d_text d) cs void = Ok roots ->
  offset_at d p = length (soup_text l) + 1 ->
  exists items, do_complete U d cs md parts providers lang ents settings order roots p = Ok items.
Proof.
  intros U cs void d l s roots md parts providers lang ents settings order p G MB HD ET HP EO. assert (HU : Utf8 (d_text d)) by apply HD. set (e := length (soup_text l)) in *.
  destruct (node_facts _ _ _ _ _ HU HP) as (ks & HT & _). assert (HT' := HT). unfold doc_tokens in HT'. apply bind_ok in HT' as ([ks0 z] & HT' & E). apply Ok_inj in E. subst ks0.
  pose proof (at_start _ HU) as A. rewrite ET in A at 2.
  destruct (soup_trun U (d_text d) true cs void HU l (scanner_new 0 WithinContent) _ (proj1 G) (proj2 G) eq_refl A) as (s1 & T1 & Z1 & P1); [right; cbn [bs app]; eauto|].
  cbn [pos scanner_new Nat.add] in P1. fold e in P1. apply at_adv in A; [|exact HU|eapply soup_utf8; apply G]. cbn [pos scanner_new Nat.add] in A. fold e in A. rewrite <- P1 in A.
  assert (A2 := A). apply (at_adv _ HU _ (bs "<")) in A2; [|apply u_one; reflexivity]. change (length (bs "<")) with 1 in A2.
  set (s2 := finish s1 (pos s1) StartTagOpen None (pos s1 + 1) AfterOpeningStartTag).
  assert (T2 : TokenRun.trun U (d_text d) true cs s1 [(StartTagOpen, bs "<")] s2).
  { apply TokenRun.one with (r := s); try discriminate; try reflexivity; [exact HU| |exact A]. apply O_start_tag_open.
    - left; auto.
    - eapply at_first. exact A.
    - destruct A as [-> _]. destruct s as [|b r]; [reflexivity|]. cbn [bs app is_prefix]. change (N_of_ascii "!") with 33%N.
      destruct (N.eqb_spec 33 b) as [Q|Q]; [exfalso; subst b; eapply MB; [reflexivity|right; left; reflexivity]|]. rewrite andb_false_r. reflexivity.
    - intros Q. destruct s as [|b r].
      + pose proof (at_len _ _ _ A2) as L. cbn [length] in L. apply (f_equal (fun x => match x with Some _ => true | None => false end)) in Q. rewrite (proj2 (nth_error_None _ _)) in Q; [discriminate|lia].
      + rewrite (at_first _ _ _ _ A2) in Q. apply Some_inj in Q. subst b. eapply MB; [reflexivity|left; reflexivity].
    - destruct A2 as [-> _]. destruct s as [|b r]; [reflexivity|]. cbn [m_doctype].
      destruct (N.eqb_spec b 33) as [Q|Q]; [exfalso; subst b; eapply MB; [reflexivity|right; left; reflexivity]|reflexivity]. }
  destruct (trun_front _ _ _ _ _ _ _ (TokenRun.trun_trans _ _ _ _ _ _ _ _ _ T1 T2) _ _ _ HT') as (ks1 & ks2 & f2 & -> & M & _). cbn [pos scanner_new] in M.
  assert (IP : In (StartTagOpen, e, e + 1) (map seen ks1)).
  { rewrite M. apply place_in. exists (flat_map lex_part l), (bs "<"), []. split; [reflexivity|]. split; [discriminate|]. rewrite joined_soup. split; reflexivity. }
  apply in_map_iff in IP as (k & SK & IK). unfold seen in SK. injection SK as K1 K2 K3.
  eapply (answers_here U d cs void roots (ks1 ++ ks2) k 60%N); eauto; [apply in_or_app; auto|congruence|lia|].
  replace (offset_at d p - 1) with (pos s1) by lia. eapply at_first. exact A.
Qed.
Print Assumptions C93_answers.
