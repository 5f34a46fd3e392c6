(** * C96: the name of an attribute being typed *)
From Verif Require Import SelectionRange PropTags PropSelection Base BaseFacts Stream Scanner ScannerFacts ScanStep ScanProps ScanShape ScanPanic Tree
  Parser ParseSpec ParseInv ParseOrder PropParse TreeFacts PropTree ParseEnd PropEnd TextDoc PropDoc
  SelAttr TokenLoop NodeScan DataManager PropData BuiltinData Entities Hover Completion PropTagComplete PropComplete PropEdits PropProposals PropAccept PropHover PropLinks PropAnswers
  Render RenderFacts PropRender PropRename ScanComplete ParseKeep Lexing PropTokens PropScan PropTagDoc PropHoverTree PropTyped PropSoup PropSoupTyping PropSoupTags PropSoupInside PropSoupHover PropSoupQuote PropSoupName PropSoupValue PropSoupAttr.
From Verif Require TokenRun.
From Coq Require Import ZifyBool ZifyNat ZifyN Permutation.

(** The name is over where the tag is. *)
Lemma name_before t p n s : at_ t p (n ++ s) -> made_of attr_name_char n -> n <> [] -> tag_over s -> attr_name t p (p + length n).
Proof.
  intros A (l & -> & M) NE S. pose proof (at_len _ _ _ A) as L. rewrite app_length in L. destruct A as [A1 A2]. repeat split.
  - destruct (encode l); [tauto|cbn; lia].
  - lia.
  - apply Bd_boundary; auto.
  - assert (OK : forall x, In x l -> scalar x = true /\ attr_char x = true) by (intros x I; destruct (M x I); auto using attr_char_ok).
    rewrite A1. replace (p + length (encode l) - p) with (length (encode l)) by lia. destruct S as [-> |(b & r & -> & B)].
    + rewrite app_nil_r. clear - OK. induction l as [|c l IH]; [reflexivity|]. destruct (OK c (or_introl eq_refl)) as [Sc N].
      rewrite encode_cons, char_run_encode1 by auto. rewrite N, IH, app_length; auto. intros x I. apply OK. cbn; auto.
    + apply char_run_stop; [exact OK|lia|]. unfold attr_char, is_uspace, is_c1. lia.
Qed.

(** ** The tokens of the tag *)
Section Names.
Variables (U : unicode) (cs : bool) (void : list str) (d : textdoc) (l : list part) (name : str) (attrs : list hattr) (sp an s : str) (roots : list node).
Hypothesis G : good_soup U cs void l.
Hypothesis GN : good_name U name.
Hypothesis GA : Forall good_attr attrs.
Hypothesis BS : blank sp.
Hypothesis NS : sp <> [].
Hypothesis GM : made_of attr_name_char an.
Hypothesis NA : an <> [].
Hypothesis TO : tag_over s.
Hypothesis HD : textdoc_ok d.
Notation t := (d_text d).
Hypothesis ET : t = soup_text l ++ tag_front name attrs sp ++ an ++ s.
Hypothesis HP : parse U t cs void = Ok roots.
Notation o := (length (soup_text l) + length (tag_front name attrs sp)).

Lemma typed_tokens : exists l0 kb kn m kw ka l2, doc_tokens U t cs = Ok ((l0 ++ kb :: kn :: m ++ [kw]) ++ ka :: l2) /\
  tk_type kb = StartTagOpen /\ tk_type kn = StartTag /\ tk_text t kn = name /\
  map seen m = place (length (soup_text l) + 1 + length name) (filter written (flat_map lex_attr attrs)) /\
  tk_type kw = Whitespace /\ tk_type ka = AttributeName /\ tk_off ka = o /\ tk_end ka = o + length an /\ tk_text t ka = an /\ tk_state ka = AfterAttributeName /\
  forall k r, l2 = k :: r -> ParseSpec.in_tag (tk_state k) = false.
Proof.
  assert (HU : Utf8 t) by apply HD. destruct G as [G0 NS0].
  destruct (node_facts _ _ _ _ _ HU HP) as (ks & HT & _). assert (HT' := HT). unfold doc_tokens in HT'. apply bind_ok in HT' as ([ks0 z] & HT' & E). apply Ok_inj in E. subst ks0.
  pose proof (at_start _ HU) as A. rewrite ET in A at 2.
  destruct (soup_trun U t true cs void HU l (scanner_new 0 WithinContent) _ G0 NS0 eq_refl A) as (sc & T1 & Z1 & P1); [right; unfold tag_front; cbn [bs app]; eauto|].
  cbn [pos scanner_new Nat.add] in P1. apply at_adv in A; [|exact HU|eapply soup_utf8; eauto]. cbn [pos scanner_new Nat.add] in A. rewrite <- P1 in A.
  unfold tag_front in A. rewrite <- !app_assoc in A. assert (CL : content_like t sc) by (left; exact Z1).
  destruct (name_first_byte _ _ GN) as (c & r & En & Wc & N1 & N2 & N3 & N4 & N5). destruct (good_name_utf8 _ _ GN) as [Un NE].
  pose proof (at_len _ _ _ A) as L. rewrite !app_length in L. change (length (bs "<")) with 1 in L.
  assert (A1 := A). apply at_adv in A1; [|auto|apply u_one; reflexivity]. change (length (bs "<")) with 1 in A1.
  set (s1 := finish sc (pos sc) StartTagOpen None (pos sc + 1) AfterOpeningStartTag).
  assert (Nx : nth_error t (pos sc + 1) = Some c) by (eapply at_first; rewrite En in A1; exact A1).
  assert (R1 : TokenRun.trun U t true cs sc [(StartTagOpen, bs "<")] s1).
  { eapply TokenRun.one; eauto; try discriminate. apply O_start_tag_open; auto.
    + eapply at_first. exact A.
    + destruct A as [-> _]. rewrite En. cbn [app bs is_prefix]. destruct (N.eqb_spec (N_of_ascii "!") c) as [Q|Q]; auto.
      exfalso. apply N1. rewrite <- Q. reflexivity.
    + rewrite Nx. unfold SLASH; congruence.
    + destruct A1 as [-> _]. rewrite En. cbn [app m_doctype]. replace (N.eqb c 33) with false by lia. reflexivity. }
  assert (EXe : exists e rest2, sp ++ an ++ s = e :: rest2 /\ is_ws e = true).
  { assert (BS' := BS). rewrite blank_ws in BS'. destruct sp as [|e sp']; [congruence|]. exists e. eexists. split; [reflexivity|]. apply BS'. cbn. auto. }
  destruct EXe as (e & rest2 & Ee & We). assert (Se : stops e) by (left; auto).
  assert (EXd : exists d0 rest', render_attrs attrs ++ e :: rest2 = d0 :: rest' /\ stops d0).
  { assert (GA' := GA). destruct attrs as [|a attrs']; [exists e, rest2; auto|]. inversion GA' as [|? ? Ga _]; subst. destruct Ga as (B1 & B2 & _).
    destruct (ha_space a) as [|d0 w] eqn:E; [tauto|]. rewrite blank_ws in B1. exists d0.
    eexists. split; [cbn [render_attrs flat_map]; unfold render_attr at 1; rewrite E; reflexivity|]. left. apply B1. cbn; auto. }
  destruct EXd as (d0 & rest' & Ed & Sd). rewrite Ee, Ed in A1.
  pose proof (at_elem _ _ _ _ _ _ A1 GN Sd) as EN. pose proof (at_sub _ _ _ _ A1) as SB.
  assert (LN : 0 < length name) by (rewrite En; cbn; lia).
  set (s2 := finish (set_space false (set_last_tag (Some (norm U cs name)) (reset s1))) (pos s1) StartTag None (pos s1 + length name) WithinTag).
  assert (R2 : TokenRun.trun U t true cs s1 [(StartTag, name)] s2).
  { eapply TokenRun.one; eauto; try discriminate. unfold s2. rewrite <- SB at 1. change (pos sc + 1) with (pos s1). apply O_start_tag; auto. }
  apply at_adv in A1; auto. rewrite <- Ed in A1. change (pos sc + 1 + length name) with (pos s2) in A1.
  destruct (TokenRun.attrs_run U t true cs HU attrs s2 e rest2) as (s3 & R3 & I3 & P3 & _); auto.
  { left. reflexivity. }
  { intros ->. discriminate. }
  apply at_adv in A1; [|auto|apply attrs_utf8; auto]. rewrite <- Ee, <- P3 in A1.
  destruct (TokenRun.tag_space U t true cs HU s3 sp _ I3 A1 BS) as (s4 & R4 & P4 & H4 & S4 & _).
  { destruct (attr_first _ GM NA) as (c0 & r0 & E0 & W0 & _). intros x y E. rewrite E0 in E. injection E as <- _. exact W0. }
  specialize (H4 NS).
  apply at_adv in A1; [|auto|apply blank_utf8; exact BS]. rewrite <- P4 in A1.
  destruct (attr_first _ GM NA) as (c0 & r0 & E0 & W0 & EQ0). pose proof (name_before _ _ _ _ A1 GM NA TO) as AN. pose proof (made_of_utf8 _ _ GM) as Ua. pose proof (at_sub _ _ _ _ A1) as SB2.
  pose proof (at_len _ _ _ A1) as L1. rewrite app_length in L1. assert (NEa : 0 < length an) by (rewrite E0; cbn; lia).
  assert (A' := A1). rewrite E0 in A'. cbn [app] in A'.
  set (s5 := finish (set_space false (set_last_attr (Some (norm U cs an)) (set_st WithinTag s4))) (pos s4) AttributeName None (pos s4 + length an) AfterAttributeName).
  assert (R5 : TokenRun.trun U t true cs s4 [(AttributeName, an)] s5).
  { eapply TokenRun.one; eauto; try discriminate.
    eapply O_in_tag; [lia|eapply TokenRun.enter; eauto; unfold TokenRun.in_tag in *; rewrite S4; auto|].
    unfold s5. rewrite <- SB2 at 1. change (pos s4) with (pos (set_st WithinTag s4)) at 1 2 3.
    apply TO_attr; auto. cbn [pos set_st]. eapply at_no_ws; eauto. }
  apply at_adv in A1; auto. change (pos s4 + length an) with (pos s5) in A1.
  assert (RR : TokenRun.trun U t true cs (scanner_new 0 WithinContent) (flat_map lex_part l ++ [(StartTagOpen, bs "<")] ++ [(StartTag, name)] ++ flat_map lex_attr attrs) s3).
  { repeat (eapply TokenRun.trun_trans; [eassumption|]). exact R3. }
  destruct (trun_front _ _ _ _ _ _ _ RR _ _ _ HT') as (ks1 & ks2 & f2 & -> & M & HT2). cbn [pos scanner_new] in M.
  assert (W : filter written (flat_map lex_part l ++ [(StartTagOpen, bs "<")] ++ [(StartTag, name)] ++ flat_map lex_attr attrs) =
    filter written (flat_map lex_part l) ++ (StartTagOpen, bs "<") :: (StartTag, name) :: filter written (flat_map lex_attr attrs)).
  { rewrite !filter_app. f_equal. cbn [filter written snd]. unfold written. cbn [snd]. destruct name; [congruence|]. reflexivity. }
  rewrite W in M. clear W. rewrite place_app in M. cbn [place] in M.
  apply map_eq_app in M as (l0 & r1 & -> & M0 & M). apply map_eq_cons in M as (kb & r2 & -> & M1 & M). apply map_eq_cons in M as (kn & m & -> & M2 & M).
  assert (JW : forall q, joined (filter written q) = joined q).
  { induction q as [|[a b] q IH]; [reflexivity|]. cbn [filter joined flat_map snd]. unfold written at 1. cbn [snd]. destruct b; cbn [joined flat_map snd app]; unfold joined in IH; rewrite IH; reflexivity. }
  rewrite JW, joined_soup in M, M1, M2. change (length (bs "<")) with 1 in M, M1, M2. cbn [Nat.add] in M, M1, M2. unfold seen in M1, M2.
  injection M1 as K1 K2 K3. injection M2 as K4 K5 K6.
  (* the white space and the name *)
  destruct (trun_one U t true cs _ _ _ _ R4 NS) as (S' & TW & NT & TF). destruct (trun_one U t true cs _ _ _ _ R5 NA) as (S5 & TW5 & NT5 & TF5).
  destruct f2 as [|f2]; [discriminate|]. cbn [tokens] in HT2. rewrite S' in HT2. cbn [bind] in HT2. apply token_eqb_neq in NT. rewrite NT in HT2.
  apply bind_ok in HT2 as ([ks3 z3] & HT3 & HT2). apply Ok_inj, pair_equal_spec in HT2 as [<- <-].
  destruct f2 as [|f2]; [discriminate|]. cbn [tokens] in HT3. rewrite S5 in HT3. cbn [bind] in HT3. apply token_eqb_neq in NT5. rewrite NT5 in HT3.
  apply bind_ok in HT3 as ([ks4 z4] & HT4 & HT3). apply Ok_inj, pair_equal_spec in HT3 as [<- <-].
  exists l0, kb, kn, m, (token_of s4), (token_of s5), ks4. split; [rewrite HT; f_equal; rewrite <- !app_assoc; cbn [app]; rewrite <- ?app_assoc; reflexivity|]. split; [exact K1|]. split; [exact K4|]. split.
  { unfold tk_text. rewrite K5, K6.
    replace t with ((soup_text l ++ bs "<") ++ name ++ render_attrs attrs ++ sp ++ an ++ s) by (rewrite ET; unfold tag_front; rewrite <- !app_assoc; reflexivity).
    replace (length (soup_text l) + 1) with (length (soup_text l ++ bs "<")) by (rewrite app_length; reflexivity). apply sub_mid. }
  assert (LF : length (tag_front name attrs sp) = 1 + length name + length (render_attrs attrs) + length sp) by (unfold tag_front; rewrite !app_length; change (length (bs "<")) with 1; lia).
  split; [exact M|]. cbn [pos s1 s2 finish] in P3. split; [exact TW|]. split; [reflexivity|]. cbn [token_of tk_off tk_end tk_state s5 finish tok_off pos st]. split; [lia|]. split; [lia|].
  split; [exact SB2|]. split; [reflexivity|]. eapply (next_over U t cs HU s5); eauto. right. reflexivity.
Qed.

Variables (md : bool) (parts : list completion_participant) (providers : list provider) (lang : str).
Variables (ents : list (str * list N)) (settings : option completion_settings) (order : list (str * str) -> list (str * str)) (p : position).
Hypothesis EO : o < offset_at d p <= o + length an.

(** The element of the tag has the name and the attributes written in it. *)
Lemma typed_node n : start_tag_at roots n (offset_at d p) -> n_tag n = Some name /\ forall x, In x (attribute_names n) <-> In x (map ha_name attrs) \/ x = an.
Proof.
  intros (I & S & M & _). assert (HU : Utf8 t) by apply HD. destruct typed_tokens as (l0 & kb & kn & m & kw & ka & l2 & HT & B1 & K1 & K2 & K3 & W1 & A1 & W2 & W3 & A2 & W4 & W5).
  destruct (complete_in_tag U d cs void roots _ HD HP HT md parts providers lang ents settings order p _ ka l2 eq_refl ltac:(lia) ltac:(rewrite W4; reflexivity) ltac:(congruence))
    as (n' & ps & pre & op & ks & q & post & sc & _ & I' & E1 & E2 & O1 & O2 & F & _ & TG & AT & _ & L & LAST & _ & _ & _ & z & R & Z).
  assert (n = n') as <-.
  { apply (same_start U d cs void roots HD HP); auto. specialize (M n' I' ltac:(lia)). specialize (LAST n I S). lia. }
  assert (q = []) as ->.
  { destruct q as [|k q]; [reflexivity|exfalso]. apply Forall_app in F as [_ F]. inversion F as [|? ? _ F']; subst. inversion F' as [|? ? F1 _]; subst. rewrite (W5 k (q ++ post) eq_refl) in F1. discriminate. }
  assert (NO : Forall (fun k => tk_type k <> StartTagOpen) (ks ++ [ka])).
  { destruct z as [|z0 z]; [discriminate|]. cbn [map] in Z. injection Z as Z0 Z. apply runs_inv in R as (S0 & _ & R). rewrite <- Z. eapply (no_open U t cs HU); [exact R| |rewrite Z; exact F].
    apply scan_outcome in S0; [|exact HU]. assert (T0 : tok z0 = StartTagOpen) by (rewrite <- O1, <- Z0; reflexivity). clear - S0 T0.
    inversion S0; subst; cbn [finish tok st] in *; try discriminate; try reflexivity. match goal with Q : tag_outcome _ _ _ _ _ _ |- _ => inversion Q; subst; cbn [finish tok st] in *; discriminate end. }
  assert (MT : Forall (fun k => tk_type k <> StartTag /\ tk_type k <> StartTagOpen) (m ++ [kw])).
  { apply Forall_app. split; [|repeat constructor; congruence]. apply Forall_forall. intros k J. apply (in_map seen) in J. rewrite K3 in J. apply place_types in J as (w & J). cbn [fst seen] in J. apply filter_In in J as [J _]. apply attr_types in J. exact J. }
  assert (ks = kn :: m ++ [kw]) as ->.
  { apply Forall_app in NO as [NO _]. clear - E1 O1 B1 K1 MT NO. apply split_eq in E1 as [(r & -> & E)|(r & E & ->)].
    - exfalso. assert (J : In op (kn :: m ++ [kw])) by (rewrite E; apply in_elt). destruct J as [<-|J]; [congruence|]. rewrite Forall_forall in MT. apply MT in J. tauto.
    - destruct r as [|y r]; cbn [app] in E; injection E as E0 E; [exact E|]. exfalso. rewrite Forall_forall in NO. apply (NO kb); [rewrite E; apply in_elt|exact B1]. }
  split.
  { rewrite TG, <- K2. apply (tag_in_last t [] kn); [exact K1|]. apply Forall_app. split; [|repeat constructor; congruence]. eapply Forall_impl; [|exact MT]. cbn. tauto. }
  assert (TX : forall p0 w q0, flat_map lex_attr attrs = p0 ++ (AttributeName, w) :: q0 ->
    let a := length (soup_text l) + 1 + length name + length (joined p0) in sub t a (a + length w) = w).
  { intros p0 w q0 E. cbn zeta. pose proof (joined_attrs attrs) as J. rewrite E, joined_app in J. cbn [joined flat_map snd] in J. change (flat_map snd q0) with (joined q0) in J.
    replace t with ((soup_text l ++ bs "<" ++ name ++ joined p0) ++ w ++ joined q0 ++ sp ++ an ++ s) by (rewrite ET; unfold tag_front; rewrite <- J, <- !app_assoc; reflexivity).
    replace (length (soup_text l) + 1 + length name + length (joined p0)) with (length (soup_text l ++ bs "<" ++ name ++ joined p0)); [apply sub_mid|].
    rewrite !app_length. change (length (bs "<")) with 1. lia. }
  intros x. rewrite (names_in d n _ AT), <- attr_name_in. split.
  - intros (k & J & T & X). apply in_app_iff in J as [[<-|J]|[<-|[]]]; [congruence| |right; congruence]. apply in_app_iff in J as [J|[<-|[]]]; [|congruence]. left.
    apply (in_map seen) in J. rewrite K3 in J. unfold seen in J. rewrite T in J.
    apply place_in in J as (p0 & w & q0 & E & _ & J1 & J2). unfold tk_text in X. rewrite J2, J1, (TX _ _ _ E) in X. subst w. rewrite E. apply in_elt.
  - intros [J| ->]; [|exists ka; split; [apply in_elt|auto]]. assert (NX : x <> []).
    { apply attr_name_in, in_map_iff in J as (a & <- & J). assert (GA' := GA). rewrite Forall_forall in GA'. destruct (GA' a J) as (_ & _ & Q & _). exact Q. }
    apply in_split in J as (p0 & q0 & E). assert (J : In (AttributeName, length (soup_text l) + 1 + length name + length (joined p0), length (soup_text l) + 1 + length name + length (joined p0) + length x) (map seen m)).
    { rewrite K3. apply place_in. exists p0, x, q0. auto. }
    apply in_map_iff in J as (k & J & IK). unfold seen in J. injection J as J1 J2 J3. exists k. split; [apply in_or_app; left; right; apply in_or_app; left; exact IK|]. split; [exact J1|].
    unfold tk_text. rewrite J2, J3. apply (TX _ _ _ E).
Qed.
End Names.

(** ** The theorem *)
(** The name of an attribute is being typed in a start tag behind a sequence of parts, and no further attribute follows. With the cursor in the name
    or behind it there is an answer: the attributes that the data in use have for the tag, without those the tag has already but with the
    one at the cursor, the 'data-' attributes of the whole document that the tag does not have, and 'data-' itself, each once. *)
Theorem C96_typed : forall U cs void d l name attrs sp an s roots md parts providers lang ents settings order p,
  good_soup U cs void l -> good_name U name -> Forall good_attr attrs -> good_attr (mkHAttr sp an NoValue) -> tag_over s ->
  textdoc_ok d -> d_text d = soup_text l ++ tag_front name attrs sp ++ an ++ s -> parse U (d_text d) cs void = Ok roots -> (forall m, Permutation (order m) m) ->
  let a := length (soup_text l) + length (tag_front name attrs sp) in a < offset_at d p <= a + length an -> word_column (d_text d) (offset_at d p) p ->
  exists items, do_complete U d cs md parts providers lang ents settings order roots p = Ok items /\
    let labels := map ci_label items in let others := map ha_name attrs in
    (forall x, In x labels <-> x = bs "data-" \/ (proposes providers lang settings (Some name) x /\ (~ In x others \/ x = an)) \/
       (is_prefix (bs "data-") x = true /\ ~ In x others /\ x <> an /\ exists m, In m (doc_nodes roots) /\ In x (attribute_names m))) /\
    (~ proposes providers lang settings (Some name) (bs "data-") -> NoDup labels).
Proof.
  intros U cs void d l name attrs sp an s roots md parts providers lang ents settings order p G GN GA (BS & NS & NA & GM & _) TO HD ET HP PO a EO WC. cbn [ha_space ha_name] in *.
  destruct (typed_tokens U cs void d l name attrs sp an s roots G GN GA BS NS GM NA TO HD ET HP) as (l0 & kb & kn & m & kw & ka & l2 & HT & B1 & K1 & K2 & K3 & W1 & A1 & W2 & W3 & A2 & W4 & _). fold a in W2, W3.
  assert (X : exists items, do_complete U d cs md parts providers lang ents settings order roots p = Ok items).
  { apply (C58_completion U d cs void roots _ md parts providers lang ents settings order p HD HP HT WC). intros k I (Q1 & Q2 & _). pose proof (doc_tiles U (d_text d) cs _ (do_utf8 d HD) HT) as TL.
    assert (k = ka); [|congruence]. eapply (tiles_cover_inj _ _ _ k ka (offset_at d p - 1)); [exact TL|exact I|apply in_elt|lia..]. }
  destruct X as (items & C).
  destruct (C42_attribute_names U d cs void roots _ md parts providers lang ents settings order p ka items HD HP HT PO ltac:(apply in_elt) ltac:(split; [lia|auto]) C)
    as (n & SA & LB & _ & ND).
  destruct (typed_node U cs void d l name attrs sp an s roots G GN GA BS NS GM NA TO HD ET HP md parts providers lang ents settings order p EO n SA) as [TN AN].
  fold (tk_text (d_text d) ka) in LB. rewrite A2 in LB. rewrite TN in *. exists items. split; [exact C|]. cbn zeta. split; [|exact ND]. intros x. rewrite LB. setoid_rewrite AN. split.
  - intros [Q|[(Q1 & Q2)|(Q1 & Q2 & Q3)]]; [auto| |].
    + right; left. split; [exact Q1|]. destruct Q2 as [Q2|[_ Q2]]; [left; tauto|right; congruence].
    + right; right. repeat split; auto.
  - intros [Q|[(Q1 & Q2)|(Q1 & Q2 & Q3 & Q4)]]; [auto| |].
    + right; left. split; [exact Q1|]. destruct (list_eq_dec N.eq_dec x an) as [->|NE]; [right; auto|]. left. tauto.
    + right; right. split; [exact Q1|]. split; [tauto|exact Q4].
Qed.
Print Assumptions C96_typed.

(** ** Documents of this kind *)
Definition typed_front : str := tag_front (bs "input") [mkHAttr (bs " ") (bs "id") NoValue; mkHAttr (bs " ") (bs "data-a") NoValue] (bs " ").
Example C96_text : soup_text mixed ++ typed_front ++ bs "typ" = bs "<ul><li>a<li>b</UL></p><b><br><input id data-a typ".
Proof. reflexivity. Qed.
(** A name half typed at the end of the text; a name that is typed, with another tag behind it; the tag ends there. *)
Example C96_answers : let o := length (soup_text mixed ++ typed_front) + 2 in
  map (fun s => do l <- names_at (soup_text mixed ++ typed_front ++ s) o; Ok (map fst l)) [bs "typ"; bs "type<p data-x data-a='</ul>"; bs "data-b></b></x>"] =
  [Ok [bs "type"; bs "data-"]; Ok [bs "type"; bs "data-x"; bs "data-"]; Ok [bs "type"; bs "data-"]].
Proof. vm_compute. reflexivity. Qed.
(** The second meets the conditions of the theorem. *)
Example C96_mixed : let d := utf16_doc (soup_text mixed ++ typed_front ++ bs "type" ++ bs "<p data-x data-a='</ul>") in let o := length (soup_text mixed ++ typed_front) + 2 in exists roots,
  good_soup demo_unicode false html5_void mixed /\ good_name demo_unicode (bs "input") /\
  Forall good_attr [mkHAttr (bs " ") (bs "id") NoValue; mkHAttr (bs " ") (bs "data-a") NoValue] /\ good_attr (mkHAttr (bs " ") (bs "type") NoValue) /\ tag_over (bs "<p data-x data-a='</ul>") /\
  textdoc_ok d /\ parse demo_unicode (d_text d) false html5_void = Ok roots /\ offset_at d (position_at d o) = o /\ word_column (d_text d) o (position_at d o).
Proof.
  set (d := utf16_doc (soup_text mixed ++ typed_front ++ bs "type" ++ bs "<p data-x data-a='</ul>")). cbn zeta. assert (HU : Utf8 (d_text d)) by (apply ascii_utf8; reflexivity).
  destruct (parse demo_unicode (d_text d) false html5_void) as [r| |] eqn:E; [|exfalso; vm_compute in E; discriminate..].
  exists r. split; [exact mixed_good|].
  split; [name|]. split; [apply Forall_cons; [attr_tac; exact I|apply Forall_cons; [attr_tac; exact I|apply Forall_nil]]|]. split; [attr_tac; exact I|].
  split; [right; eexists _, _; split; [reflexivity|auto]|].
  split; [apply C27_contract, HU|]. split; [reflexivity|]. split; [vm_compute; reflexivity|]. apply C58_columns; [exact HU|vm_compute; lia|vm_compute; reflexivity].
Qed.
