(** * C95: attribute names in an unfinished start tag *)
From Verif Require Import SelectionRange PropTags PropSelection Base BaseFacts Stream Scanner ScannerFacts ScanStep ScanProps ScanShape ScanPanic Tree
  Parser ParseSpec ParseInv ParseOrder PropParse TreeFacts PropTree ParseEnd PropEnd TextDoc PropDoc
  SelAttr TokenLoop NodeScan DataManager PropData BuiltinData Entities Hover Completion PropTagComplete PropComplete PropEdits PropProposals PropAccept PropHover PropLinks PropAnswers
  Render RenderFacts PropRender PropRename ScanComplete ParseKeep Lexing PropTokens PropScan PropTagDoc PropHoverTree PropTyped PropSoup PropSoupTyping PropSoupTags PropSoupInside PropSoupHover PropSoupQuote PropSoupName PropSoupValue.
From Verif Require TokenRun.
From Coq Require Import ZifyBool ZifyNat ZifyN Permutation.

(** A start tag as far as it is typed: its name, some attributes, and white space. *)
Definition tag_front (name : str) (attrs : list hattr) (sp : str) : str := bs "<" ++ name ++ render_attrs attrs ++ sp.
(** No further attribute follows: the text ends, or '<' or '>' comes next. *)
Definition tag_over (s : str) : Prop := s = [] \/ exists b r, s = b :: r /\ (b = 60%N \/ b = 62%N).

(** ** Steps inside a start tag *)
Section Steps.
Variables (U : unicode) (t : str) (cs : bool).
Hypothesis HU : Utf8 t.
Lemma no_open m : forall sc z, runs U t true cs sc m z -> ParseSpec.in_tag (st sc) = true ->
  Forall (fun k => ParseSpec.in_tag (tk_state k) = true) (map token_of m) -> Forall (fun k => tk_type k <> StartTagOpen) (map token_of m).
Proof.
  induction m as [|x m IH]; intros sc z R I F; [constructor|]. apply runs_inv in R as (S & NE & R). cbn [map] in *.
  apply Forall_cons_iff in F as [F1 F]. constructor; [|eapply IH; eauto]. cbn [token_of tk_type tk_state] in *. clear - HU S I.
  apply scan_outcome in S; auto. assert (CL : ~ content_like t sc).
  { intros [C|[[C _]|[C _]]]; rewrite C in I; discriminate. }
  intros T. inversion S; subst; cbn [finish tok st] in *; try contradiction; try discriminate.
  match goal with Q : tag_outcome _ _ _ _ _ _ |- _ => inversion Q; subst; cbn [finish tok st] in *; discriminate end.
Qed.
(** Behind the white space the tag is over. *)
Lemma next_over sc s f ks z : TokenRun.in_tag sc -> at_ t (pos sc) s -> tag_over s -> tokens U t true cs f sc = Ok (ks, z) ->
  forall k r, ks = k :: r -> ParseSpec.in_tag (tk_state k) = false.
Proof.
  intros I A O H k r ->. destruct f as [|f]; [discriminate|]. cbn [tokens] in H. apply bind_ok in H as (s1 & S & H).
  destruct (token_eqb (tok s1) EOS) eqn:E; [apply Ok_inj, pair_equal_spec in H as [H _]; discriminate|].
  apply bind_ok in H as ([ks0 z0] & _ & H). apply Ok_inj, pair_equal_spec in H as [H _]. injection H as <- _. cbn [token_of tk_state].
  assert (L := at_len _ _ _ A). destruct O as [-> |(b & r' & -> & B)].
  - exfalso. cbn [length] in L. assert (S' := outcome_scan U t true cs HU sc _ (O_eos U t true cs sc ltac:(lia)) (or_introl (proj2 A)) ltac:(discriminate)).
    rewrite S in S'. apply Ok_inj in S'. subst s1. discriminate.
  - cbn [length] in L. pose proof (at_first _ _ _ _ A) as F.
    assert (EN : enter_tag t sc (set_st WithinTag sc)) by (eapply TokenRun.enter; eauto; unfold is_ws, EQ; lia).
    destruct B as [-> | ->].
    + assert (S' := outcome_scan U t true cs HU sc _ (O_in_tag U t true cs sc _ _ ltac:(lia) EN (TO_pseudo U t true cs (set_st WithinTag sc) eq_refl F)) (or_introl (proj2 A)) ltac:(discriminate)).
      rewrite S in S'. apply Ok_inj in S'. subst s1. reflexivity.
    + assert (S' := outcome_scan U t true cs HU sc _ (O_in_tag U t true cs sc _ _ ltac:(lia) EN (TO_close U t true cs (set_st WithinTag sc) F)) (or_introl (proj2 A)) ltac:(discriminate)).
      rewrite S in S'. apply Ok_inj in S'. subst s1. cbn [finish st]. unfold after_close. cbn.
      repeat match goal with |- context [if ?b then _ else _] => destruct b | |- context [match ?b with _ => _ end] => destruct b end; reflexivity.
Qed.
End Steps.

Lemma trun_one U t emit cs sc k w sc1 : TokenRun.trun U t emit cs sc [(k, w)] sc1 -> w <> [] ->
  scan U t emit cs sc = Ok sc1 /\ tok sc1 = k /\ tok sc1 <> EOS /\ tok_off sc1 = pos sc.
Proof.
  intros R N. inversion R as [|? ? ? ? Q|? s1 ? ? ? S' NT NW TF TE PP SU Q]; subst; [congruence|]. inversion Q; subst. auto.
Qed.

Lemma attr_name_in l w : In (AttributeName, w) (flat_map lex_attr l) <-> In w (map ha_name l).
Proof.
  rewrite in_flat_map, in_map_iff. split.
  - intros (a & I & J). exists a. split; [|exact I]. unfold lex_attr in J. destruct (ha_value a); cbn in J;
      repeat (destruct J as [J|J]; [injection J as J; try discriminate; try (subst; reflexivity)|]); try contradiction; congruence.
  - intros (a & <- & I). exists a. split; [exact I|]. unfold lex_attr. destruct (ha_value a); cbn; auto.
Qed.

(** ** The tokens of the tag *)
Section Names.
Variables (U : unicode) (cs : bool) (void : list str) (d : textdoc) (l : list part) (name : str) (attrs : list hattr) (sp s : str) (roots : list node).
Hypothesis G : good_soup U cs void l.
Hypothesis GN : good_name U name.
Hypothesis GA : Forall good_attr attrs.
Hypothesis BS : blank sp.
Hypothesis NS : sp <> [].
Hypothesis TO : tag_over s.
Hypothesis HD : textdoc_ok d.
Notation t := (d_text d).
Hypothesis ET : t = soup_text l ++ tag_front name attrs sp ++ s.
Hypothesis HP : parse U t cs void = Ok roots.
Notation o := (length (soup_text l) + 1 + length name + length (render_attrs attrs)).

Lemma front_tokens : exists l0 kb kn m kw l2, doc_tokens U t cs = Ok ((l0 ++ kb :: kn :: m) ++ kw :: l2) /\
  tk_type kb = StartTagOpen /\ tk_type kn = StartTag /\ tk_text t kn = name /\
  map seen m = place (length (soup_text l) + 1 + length name) (filter written (flat_map lex_attr attrs)) /\
  tk_type kw = Whitespace /\ tk_off kw = o /\ tk_end kw = o + length sp /\ (tk_state kw = WithinTag \/ tk_state kw = AfterAttributeName) /\
  forall k r, l2 = k :: r -> ParseSpec.in_tag (tk_state k) = false.
Proof.
  assert (HU : Utf8 t) by apply HD. destruct G as [G0 NS0].
  destruct (node_facts _ _ _ _ _ HU HP) as (ks & HT & _). assert (HT' := HT). unfold doc_tokens in HT'. apply bind_ok in HT' as ([ks0 z] & HT' & E). apply Ok_inj in E. subst ks0.
  pose proof (at_start _ HU) as A. rewrite ET in A at 2.
  destruct (soup_trun U t true cs void HU l (scanner_new 0 WithinContent) _ G0 NS0 eq_refl A) as (sc & T1 & Z1 & P1); [right; unfold tag_front; cbn [bs app]; eauto|].
  cbn [pos scanner_new Nat.add] in P1. apply at_adv in A; [|exact HU|eapply soup_utf8; eauto]. cbn [pos scanner_new Nat.add] in A. rewrite <- P1 in A.
  unfold tag_front in A. rewrite <- !app_assoc in A. assert (CL : content_like t sc) by (left; exact Z1).
  destruct (name_first_byte _ _ GN) as (c & r & En & Wc & N1 & N2 & N3 & N4 & N5). destruct (good_name_utf8 _ _ GN) as [Un NE].
  pose proof (at_len _ _ _ A) as L. rewrite !app_length in L. change (length (bs "<")) with 1 in L.
  assert (A1 := A). apply at_adv in A1; [|auto|apply u_one; reflexivity]. change (length (bs "<")) with 1 in A1.
  set (s1 := finish sc (pos sc) StartTagOpen None (pos sc + 1) AfterOpeningStartTag).
  assert (Nx : nth_error t (pos sc + 1) = Some c) by (eapply at_first; rewrite En in A1; exact A1).
  assert (R1 : TokenRun.trun U t true cs sc [(StartTagOpen, bs "<")] s1).
  { eapply TokenRun.one; eauto; try discriminate. apply O_start_tag_open; auto.
    + eapply at_first. exact A.
    + destruct A as [-> _]. rewrite En. cbn [app bs is_prefix]. destruct (N.eqb_spec (N_of_ascii "!") c) as [Q|Q]; auto.
      exfalso. apply N1. rewrite <- Q. reflexivity.
    + rewrite Nx. unfold SLASH; congruence.
    + destruct A1 as [-> _]. rewrite En. cbn [app m_doctype]. replace (N.eqb c 33) with false by lia. reflexivity. }
  assert (EXe : exists e rest2, sp ++ s = e :: rest2 /\ is_ws e = true).
  { assert (BS' := BS). rewrite blank_ws in BS'. destruct sp as [|e sp']; [congruence|]. exists e. eexists. split; [reflexivity|]. apply BS'. cbn. auto. }
  destruct EXe as (e & rest2 & Ee & We). assert (Se : stops e) by (left; auto).
  assert (EXd : exists d0 rest', render_attrs attrs ++ e :: rest2 = d0 :: rest' /\ stops d0).
  { assert (GA' := GA). destruct attrs as [|a attrs']; [exists e, rest2; auto|]. inversion GA' as [|? ? Ga _]; subst. destruct Ga as (B1 & B2 & _).
    destruct (ha_space a) as [|d0 w] eqn:E; [tauto|]. rewrite blank_ws in B1. exists d0.
    eexists. split; [cbn [render_attrs flat_map]; unfold render_attr at 1; rewrite E; reflexivity|]. left. apply B1. cbn; auto. }
  destruct EXd as (d0 & rest' & Ed & Sd). rewrite Ee, Ed in A1.
  pose proof (at_elem _ _ _ _ _ _ A1 GN Sd) as EN. pose proof (at_sub _ _ _ _ A1) as SB.
  assert (LN : 0 < length name) by (rewrite En; cbn; lia).
  set (s2 := finish (set_space false (set_last_tag (Some (norm U cs name)) (reset s1))) (pos s1) StartTag None (pos s1 + length name) WithinTag).
  assert (R2 : TokenRun.trun U t true cs s1 [(StartTag, name)] s2).
  { eapply TokenRun.one; eauto; try discriminate. unfold s2. rewrite <- SB at 1. change (pos sc + 1) with (pos s1). apply O_start_tag; auto. }
  apply at_adv in A1; auto. rewrite <- Ed in A1. change (pos sc + 1 + length name) with (pos s2) in A1.
  destruct (TokenRun.attrs_run U t true cs HU attrs s2 e rest2) as (s3 & R3 & I3 & P3 & _); auto.
  { left. reflexivity. }
  { intros ->. discriminate. }
  apply at_adv in A1; [|auto|apply attrs_utf8; auto]. rewrite <- Ee, <- P3 in A1.
  destruct (TokenRun.tag_space U t true cs HU s3 sp _ I3 A1 BS) as (s4 & R4 & P4 & _ & S4 & _).
  { intros x y E. destruct TO as [-> |(b & q & -> & B)]; [discriminate|]. injection E as <- _. unfold is_ws. lia. }
  apply at_adv in A1; [|auto|apply blank_utf8; exact BS]. rewrite <- P4 in A1.
  assert (RR : TokenRun.trun U t true cs (scanner_new 0 WithinContent) (flat_map lex_part l ++ [(StartTagOpen, bs "<")] ++ [(StartTag, name)] ++ flat_map lex_attr attrs) s3).
  { repeat (eapply TokenRun.trun_trans; [eassumption|]). exact R3. }
  destruct (trun_front _ _ _ _ _ _ _ RR _ _ _ HT') as (ks1 & ks2 & f2 & -> & M & HT2). cbn [pos scanner_new] in M.
  assert (W : filter written (flat_map lex_part l ++ [(StartTagOpen, bs "<")] ++ [(StartTag, name)] ++ flat_map lex_attr attrs) =
    filter written (flat_map lex_part l) ++ (StartTagOpen, bs "<") :: (StartTag, name) :: filter written (flat_map lex_attr attrs)).
  { rewrite !filter_app. f_equal. cbn [filter written snd]. unfold written. cbn [snd]. destruct name; [congruence|]. reflexivity. }
  rewrite W in M. clear W. rewrite place_app in M. cbn [place] in M.
  apply map_eq_app in M as (l0 & r1 & -> & M0 & M). apply map_eq_cons in M as (kb & r2 & -> & M1 & M). apply map_eq_cons in M as (kn & m & -> & M2 & M).
  assert (JW : forall q, joined (filter written q) = joined q).
  { induction q as [|[a b] q IH]; [reflexivity|]. cbn [filter joined flat_map snd]. unfold written at 1. cbn [snd]. destruct b; cbn [joined flat_map snd app]; unfold joined in IH; rewrite IH; reflexivity. }
  rewrite JW, joined_soup in M, M1, M2. change (length (bs "<")) with 1 in M, M1, M2. cbn [Nat.add] in M, M1, M2. unfold seen in M1, M2.
  injection M1 as K1 K2 K3. injection M2 as K4 K5 K6.
  (* the white space *)
  destruct (trun_one U t true cs _ _ _ _ R4 NS) as (S' & TW & NT & TF).
  destruct f2 as [|f2]; [discriminate|]. cbn [tokens] in HT2. rewrite S' in HT2. cbn [bind] in HT2. apply token_eqb_neq in NT. rewrite NT in HT2.
  apply bind_ok in HT2 as ([ks3 z3] & HT3 & HT2). apply Ok_inj, pair_equal_spec in HT2 as [<- <-].
  exists l0, kb, kn, m, (token_of s4), ks3. split; [exact HT|]. split; [exact K1|]. split; [exact K4|]. split.
  { unfold tk_text. rewrite K5, K6.
    replace t with ((soup_text l ++ bs "<") ++ name ++ render_attrs attrs ++ sp ++ s) by (rewrite ET; unfold tag_front; rewrite <- !app_assoc; reflexivity).
    replace (length (soup_text l) + 1) with (length (soup_text l ++ bs "<")) by (rewrite app_length; reflexivity). apply sub_mid. }
  split; [exact M|]. cbn [token_of tk_type tk_off tk_end tk_state]. cbn [pos s1 s2 finish] in P3. split; [auto|]. split; [lia|]. split; [lia|].
  split; [rewrite S4; exact I3|]. eapply (next_over U t cs HU s4); eauto. unfold TokenRun.in_tag in *. rewrite S4. exact I3.
Qed.

Variables (md : bool) (parts : list completion_participant) (providers : list provider) (lang : str).
Variables (ents : list (str * list N)) (settings : option completion_settings) (order : list (str * str) -> list (str * str)) (p : position).
Hypothesis EO : o < offset_at d p <= o + length sp.

(** The element of the tag has the name and the attributes written in it. *)
Lemma front_node n : start_tag_at roots n (offset_at d p) -> n_tag n = Some name /\ forall x, In x (attribute_names n) <-> In x (map ha_name attrs).
Proof.
  intros (I & S & M & _). assert (HU : Utf8 t) by apply HD. destruct front_tokens as (l0 & kb & kn & m & kw & l2 & HT & B1 & K1 & K2 & K3 & W1 & W2 & W3 & W4 & W5).
  destruct (complete_in_tag U d cs void roots _ HD HP HT md parts providers lang ents settings order p _ kw l2 eq_refl ltac:(lia) ltac:(destruct W4 as [-> | ->]; reflexivity) ltac:(congruence))
    as (n' & ps & pre & op & ks & q & post & sc & _ & I' & E1 & E2 & O1 & O2 & F & _ & TG & AT & _ & L & LAST & _ & _ & _ & z & R & Z).
  assert (n = n') as <-.
  { apply (same_start U d cs void roots HD HP); auto. specialize (M n' I' ltac:(lia)). specialize (LAST n I S). lia. }
  assert (q = []) as ->.
  { destruct q as [|k q]; [reflexivity|exfalso]. apply Forall_app in F as [_ F]. inversion F as [|? ? _ F']; subst. inversion F' as [|? ? F1 _]; subst. rewrite (W5 k (q ++ post) eq_refl) in F1. discriminate. }
  assert (NO : Forall (fun k => tk_type k <> StartTagOpen) (ks ++ [kw])).
  { destruct z as [|z0 z]; [discriminate|]. cbn [map] in Z. injection Z as Z0 Z. apply runs_inv in R as (S0 & _ & R). rewrite <- Z. eapply (no_open U t cs HU); [exact R| |rewrite Z; exact F].
    apply scan_outcome in S0; [|exact HU]. assert (T0 : tok z0 = StartTagOpen) by (rewrite <- O1, <- Z0; reflexivity). clear - S0 T0.
    inversion S0; subst; cbn [finish tok st] in *; try discriminate; try reflexivity. match goal with Q : tag_outcome _ _ _ _ _ _ |- _ => inversion Q; subst; cbn [finish tok st] in *; discriminate end. }
  assert (MT : Forall (fun k => tk_type k <> StartTag /\ tk_type k <> StartTagOpen) m).
  { apply Forall_forall. intros k J. apply (in_map seen) in J. rewrite K3 in J. apply place_types in J as (w & J). cbn [fst seen] in J. apply filter_In in J as [J _]. apply attr_types in J. exact J. }
  assert (ks = kn :: m) as ->.
  { apply Forall_app in NO as [NO _]. clear - E1 O1 B1 K1 MT NO. apply split_eq in E1 as [(r & -> & E)|(r & E & ->)].
    - exfalso. assert (J : In op (kn :: m)) by (rewrite E; apply in_elt). destruct J as [<-|J]; [congruence|]. rewrite Forall_forall in MT. apply MT in J. tauto.
    - destruct r as [|y r]; cbn [app] in E; injection E as E0 E; [exact E|]. exfalso. rewrite Forall_forall in NO. apply (NO kb); [rewrite E; apply in_elt|exact B1]. }
  split.
  { rewrite TG, <- K2. apply (tag_in_last t [] kn); [exact K1|]. apply Forall_app. split; [|repeat constructor; congruence]. eapply Forall_impl; [|exact MT]. cbn. tauto. }
  assert (TX : forall p0 w q0, flat_map lex_attr attrs = p0 ++ (AttributeName, w) :: q0 ->
    let a := length (soup_text l) + 1 + length name + length (joined p0) in sub t a (a + length w) = w).
  { intros p0 w q0 E. cbn zeta. pose proof (joined_attrs attrs) as J. rewrite E, joined_app in J. cbn [joined flat_map snd] in J. change (flat_map snd q0) with (joined q0) in J.
    replace t with ((soup_text l ++ bs "<" ++ name ++ joined p0) ++ w ++ joined q0 ++ sp ++ s) by (rewrite ET; unfold tag_front; rewrite <- J, <- !app_assoc; reflexivity).
    replace (length (soup_text l) + 1 + length name + length (joined p0)) with (length (soup_text l ++ bs "<" ++ name ++ joined p0)); [apply sub_mid|].
    rewrite !app_length. change (length (bs "<")) with 1. lia. }
  intros x. rewrite (names_in d n _ AT), <- attr_name_in. split.
  - intros (k & J & T & X). apply in_app_iff in J as [[<-|J]|[<-|[]]]; [congruence| |congruence]. apply (in_map seen) in J. rewrite K3 in J. unfold seen in J. rewrite T in J.
    apply place_in in J as (p0 & w & q0 & E & _ & J1 & J2). unfold tk_text in X. rewrite J2, J1, (TX _ _ _ E) in X. subst w. rewrite E. apply in_elt.
  - intros J. assert (NX : x <> []).
    { apply attr_name_in, in_map_iff in J as (a & <- & J). assert (GA' := GA). rewrite Forall_forall in GA'. destruct (GA' a J) as (_ & _ & Q & _). exact Q. }
    apply in_split in J as (p0 & q0 & E). assert (J : In (AttributeName, length (soup_text l) + 1 + length name + length (joined p0), length (soup_text l) + 1 + length name + length (joined p0) + length x) (map seen m)).
    { rewrite K3. apply place_in. exists p0, x, q0. auto. }
    apply in_map_iff in J as (k & J & IK). unfold seen in J. injection J as J1 J2 J3. exists k. split; [apply in_or_app; left; right; exact IK|]. split; [exact J1|].
    unfold tk_text. rewrite J2, J3. apply (TX _ _ _ E).
Qed.

(** There is an answer. *)
Lemma front_answered : exists items, do_complete U d cs md parts providers lang ents settings order roots p = Ok items.
Proof.
  destruct front_tokens as (l0 & kb & kn & m & kw & l2 & HT & B1 & K1 & K2 & K3 & W1 & W2 & W3 & _).
  apply (C58_completion U d cs void roots _ md parts providers lang ents settings order p HD HP HT).
  - intros a LA H. destruct (Nat.eq_dec a (offset_at d p)) as [->|NE]; [lia|exfalso]. destruct (H (offset_at d p - 1)) as (c & C & K); [lia|].
    assert (TT : t = (soup_text l ++ bs "<" ++ name ++ render_attrs attrs) ++ sp ++ s) by (rewrite ET; unfold tag_front; rewrite <- !app_assoc; reflexivity).
    assert (LL : length (soup_text l ++ bs "<" ++ name ++ render_attrs attrs) = o) by (rewrite !app_length; change (length (bs "<")) with 1; lia).
    rewrite TT, nth_error_app2, LL, nth_error_app1 in C by lia. apply nth_error_In in C. assert (BS' := BS). rewrite blank_ws in BS'. apply BS' in C. unfold is_ws in C. unfold alnum in K. lia.
  - intros k I (Q1 & Q2 & _). pose proof (doc_tiles U t cs _ (do_utf8 d HD) HT) as TL.
    assert (k = kw); [|congruence]. eapply (tiles_cover_inj _ _ _ k kw (offset_at d p - 1)); [exact TL|exact I|apply in_elt|lia..].
Qed.
End Names.

(** ** The theorem *)
(** In the white space of a start tag, behind a sequence of parts: its name, some attributes and white space are typed,
    and no further attribute follows. There is an answer, and it proposes, each once, the attributes that the data in use
    have for the tag and the 'data-' attributes of the whole document, without those the tag has already, and 'data-' itself. *)
Theorem C95_names : forall U cs void d l name attrs sp s roots md parts providers lang ents settings order p,
  good_soup U cs void l -> good_name U name -> Forall good_attr attrs -> blank sp -> sp <> [] -> tag_over s ->
  textdoc_ok d -> d_text d = soup_text l ++ tag_front name attrs sp ++ s -> parse U (d_text d) cs void = Ok roots -> (forall m, Permutation (order m) m) ->
  let a := length (soup_text l) + 1 + length name + length (render_attrs attrs) in a < offset_at d p <= a + length sp ->
  exists items, do_complete U d cs md parts providers lang ents settings order roots p = Ok items /\
    let labels := map ci_label items in let written := map ha_name attrs in
    (forall x, In x labels <-> x = bs "data-" \/ (proposes providers lang settings (Some name) x /\ ~ In x written) \/
       (is_prefix (bs "data-") x = true /\ ~ In x written /\ exists m, In m (doc_nodes roots) /\ In x (attribute_names m))) /\
    (~ proposes providers lang settings (Some name) (bs "data-") -> NoDup labels).
Proof.
  intros U cs void d l name attrs sp s roots md parts providers lang ents settings order p G GN GA BS NS TO HD ET HP PO a EO.
  destruct (front_answered U cs void d l name attrs sp s roots G GN GA BS NS TO HD ET HP md parts providers lang ents settings order p EO) as (items & C).
  destruct (front_tokens U cs void d l name attrs sp s roots G GN GA BS NS TO HD ET HP) as (l0 & kb & kn & m & kw & l2 & HT & B1 & K1 & K2 & K3 & W1 & W2 & W3 & W4 & _). fold a in W2, W3.
  destruct (C42_attribute_names U d cs void roots _ md parts providers lang ents settings order p kw items HD HP HT PO ltac:(apply in_elt) ltac:(split; [lia|auto]) C)
    as (n & SA & LB & _ & ND).
  destruct (front_node U cs void d l name attrs sp s roots G GN GA BS NS TO HD ET HP md parts providers lang ents settings order p EO n SA) as [TN AN].
  rewrite TN in *. exists items. split; [exact C|]. cbn zeta. split; [|exact ND]. intros x. rewrite LB. setoid_rewrite AN.
  split; (intros [Q|[(Q1 & Q2)|(Q1 & Q2 & Q3)]]; [auto| |auto]); right; left.
  - split; [exact Q1|]. destruct Q2 as [Q2|[Q2 _]]; [exact Q2|congruence].
  - auto.
Qed.
Print Assumptions C95_names.

(** ** Documents of this kind *)
Definition names_demo : str := tag_front (bs "input") [mkHAttr (bs " ") (bs "id") NoValue; mkHAttr (bs " ") (bs "data-a") NoValue] (bs "  ").
Example C95_text : soup_text mixed ++ names_demo = bs "<ul><li>a<li>b</UL></p><b><br><input id data-a  ".
Proof. reflexivity. Qed.
(** The text ends there; another tag follows, with an attribute that is proposed as well; the tag ends there. *)
Example C95_answers : let o := length (soup_text mixed ++ names_demo) in
  map (fun s => do l <- names_at (soup_text mixed ++ names_demo ++ s) o; Ok (map fst l)) [[]; bs "<p data-x data-a='</ul>"; bs "></b></x>"] =
  [Ok [bs "type"; bs "data-"]; Ok [bs "type"; bs "data-x"; bs "data-"]; Ok [bs "type"; bs "data-"]].
Proof. vm_compute. reflexivity. Qed.
(** The second meets the conditions of the theorem. *)
Example C95_mixed : let d := utf16_doc (soup_text mixed ++ names_demo ++ bs "<p data-x data-a='</ul>") in let o := length (soup_text mixed ++ names_demo) in exists roots,
  good_soup demo_unicode false html5_void mixed /\ good_name demo_unicode (bs "input") /\
  Forall good_attr [mkHAttr (bs " ") (bs "id") NoValue; mkHAttr (bs " ") (bs "data-a") NoValue] /\ blank (bs "  ") /\ tag_over (bs "<p data-x data-a='</ul>") /\
  textdoc_ok d /\ parse demo_unicode (d_text d) false html5_void = Ok roots /\ offset_at d (position_at d o) = o.
Proof.
  set (d := utf16_doc (soup_text mixed ++ names_demo ++ bs "<p data-x data-a='</ul>")). cbn zeta. assert (HU : Utf8 (d_text d)) by (apply ascii_utf8; reflexivity).
  destruct (parse demo_unicode (d_text d) false html5_void) as [r| |] eqn:E; [|exfalso; vm_compute in E; discriminate..].
  exists r. split; [exact mixed_good|].
  split; [name|]. split; [apply Forall_cons; [attr_tac; exact I|apply Forall_cons; [attr_tac; exact I|apply Forall_nil]]|].
  split; [rewrite blank_ws; intros x [<- |[<- |[]]]; reflexivity|]. split; [right; eexists _, _; split; [reflexivity|auto]|].
  split; [apply C27_contract, HU|]. split; [reflexivity|vm_compute; reflexivity].
Qed.
