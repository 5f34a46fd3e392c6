(** * C94: values in an unfinished start tag *)
From Verif Require Import SelectionRange PropTags PropSelection Base BaseFacts Stream Scanner ScannerFacts ScanStep ScanProps ScanShape ScanPanic Tree
  Parser ParseSpec ParseInv ParseOrder PropParse TreeFacts PropTree ParseEnd PropEnd TextDoc PropDoc
  SelAttr TokenLoop NodeScan DataManager PropData BuiltinData Entities Hover Completion PropTagComplete PropComplete PropEdits PropProposals PropAccept PropHover PropLinks PropAnswers
  Render RenderFacts PropRender PropRename ScanComplete ParseKeep Lexing PropTokens PropScan PropTagDoc PropHoverTree PropTyped PropSoup PropSoupTyping PropSoupTags PropSoupInside PropSoupHover PropSoupQuote PropSoupName.
From Verif Require TokenRun.
From Coq Require Import ZifyBool ZifyNat ZifyN.

(** ** The tokens up to the '=' *)
Lemma tag_in_last t a k b : tk_type k = StartTag -> Forall (fun k => tk_type k <> StartTag) b -> tag_in t (a ++ k :: b) = Some (tk_text t k).
Proof.
  intros T F. assert (B : tag_in t b = None).
  { induction F as [|x b N F IH]; [reflexivity|]. cbn [tag_in]. rewrite IH. apply token_eqb_neq in N. rewrite N. reflexivity. }
  induction a as [|x a IH]; cbn [app tag_in]; [|rewrite IH; reflexivity]. rewrite B, T. reflexivity.
Qed.
Lemma place_types l : forall o x, In x (place o l) -> exists s, In (fst (fst x), s) l.
Proof.
  induction l as [|[k s] l IH]; intros o x I; cbn [place] in I; [contradiction|]. destruct I as [<-|I]; [exists s; left; reflexivity|].
  destruct (IH _ _ I) as (s' & S). exists s'. right. exact S.
Qed.
Lemma attr_types l k s : In (k, s) (flat_map lex_attr l) -> k <> StartTag /\ k <> StartTagOpen.
Proof.
  intros I. apply in_flat_map in I as (a & _ & I). unfold lex_attr in I. destruct (ha_value a); cbn in I;
    repeat (destruct I as [I|I]; [injection I as <- _; split; discriminate|]); destruct I.
Qed.

Section Value.
Variables (U : unicode) (cs : bool) (void : list str) (d : textdoc) (l : list part) (name : str) (attrs : list hattr) (sp an s : str) (roots : list node).
Hypothesis G : good_soup U cs void l.
Hypothesis GN : good_name U name.
Hypothesis GA : Forall good_attr attrs.
Hypothesis Ga : good_attr (mkHAttr sp an NoValue).
Hypothesis HD : textdoc_ok d.
Notation t := (d_text d).
Hypothesis ET : t = soup_text l ++ half_tag name attrs sp an ++ s.
Hypothesis HP : parse U t cs void = Ok roots.
Notation o := (length (soup_text l) + length (half_tag name attrs sp an)).

Lemma half_tokens : exists l0 kn m ka kd l2, doc_tokens U t cs = Ok ((l0 ++ kn :: m ++ [ka]) ++ kd :: l2) /\
  tk_type kn = StartTag /\ tk_text t kn = name /\ Forall (fun k => tk_type k <> StartTag /\ tk_type k <> StartTagOpen) m /\
  tk_type ka = AttributeName /\ tk_text t ka = an /\ tk_type kd = DelimiterAssign /\ tk_off kd = o - 1 /\ tk_end kd = o.
Proof.
  assert (HU : Utf8 t) by apply HD. destruct G as [G0 NS].
  destruct (node_facts _ _ _ _ _ HU HP) as (ks & HT & _). assert (HT' := HT). unfold doc_tokens in HT'. apply bind_ok in HT' as ([ks0 z] & HT' & E). apply Ok_inj in E. subst ks0.
  pose proof (at_start _ HU) as A. rewrite ET in A at 2.
  destruct (soup_trun U t true cs void HU l (scanner_new 0 WithinContent) _ G0 NS eq_refl A) as (s1 & T1 & Z1 & P1); [right; unfold half_tag; cbn [bs app]; eauto|].
  cbn [pos scanner_new Nat.add] in P1. apply at_adv in A; [|exact HU|eapply soup_utf8; eauto]. cbn [pos scanner_new Nat.add] in A. rewrite <- P1 in A.
  destruct (half_run U t true cs HU s1 name attrs sp an s (or_introl Z1) A GN GA Ga) as (s2 & T2 & P2 & A2). rewrite P1 in P2.
  destruct (trun_front _ _ _ _ _ _ _ (TokenRun.trun_trans _ _ _ _ _ _ _ _ _ T1 T2) _ _ _ HT') as (ks1 & ks2 & f2 & -> & M & HT2). cbn [pos scanner_new] in M.
  destruct (good_name_utf8 _ _ GN) as [Un NE]. destruct Ga as (G1 & G2 & G3 & G4 & _). cbn [ha_space ha_name] in *.
  assert (W : filter written (flat_map lex_part l ++ lex_half name attrs sp an) =
    (filter written (flat_map lex_part l) ++ [(StartTagOpen, bs "<")]) ++ (StartTag, name) :: filter written (flat_map lex_attr attrs ++ [(Whitespace, sp)]) ++ [(AttributeName, an)] ++ [(DelimiterAssign, bs "=")]).
  { unfold lex_half. rewrite !filter_app. rewrite <- !app_assoc. f_equal. cbn [filter written snd]. unfold written. cbn [snd]. destruct name; [congruence|]. destruct an; [congruence|]. destruct sp; [congruence|].
    cbn [app]. rewrite <- ?app_assoc. reflexivity. }
  rewrite W in M. clear W. rewrite place_app in M. cbn [place] in M.
  apply map_eq_app in M as (l0 & r1 & -> & M0 & M). apply map_eq_cons in M as (kn & r2 & -> & M1 & M).
  rewrite place_app in M. cbn [place] in M. apply map_eq_app in M as (m & r3 & -> & M2 & M). apply map_eq_cons in M as (ka & r4 & -> & M3 & M). apply map_eq_cons in M as (kd & r5 & -> & M4 & M). apply map_eq_nil in M. subst r5.
  assert (JW : forall q, joined (filter written q) = joined q).
  { induction q as [|[a b] q IH]; [reflexivity|]. cbn [filter joined flat_map snd]. unfold written at 1. cbn [snd]. destruct b; cbn [joined flat_map snd app]; unfold joined in IH; rewrite IH; reflexivity. }
  assert (J1 : length (joined (filter written (flat_map lex_part l) ++ [(StartTagOpen, bs "<")])) = length (soup_text l) + 1) by (rewrite joined_app, JW, joined_soup, app_length; reflexivity).
  assert (J2 : length (joined (filter written (flat_map lex_attr attrs ++ [(Whitespace, sp)]))) = length (render_attrs attrs) + length sp).
  { rewrite JW, joined_app, joined_attrs, app_length. unfold joined. cbn [flat_map snd]. rewrite app_nil_r. reflexivity. }
  rewrite J1 in M1, M3, M4. rewrite J2 in M3, M4. unfold seen in M1, M3, M4.
  assert (F : forall k, seen k = (tk_type k, tk_off k, tk_end k)) by reflexivity.
  injection M1 as N1 N2 N3. injection M3 as N4 N5 N6. injection M4 as N7 N8 N9.
  exists l0, kn, m, ka, kd, ks2. split; [rewrite HT; f_equal; rewrite <- !app_assoc; cbn [app]; rewrite <- !app_assoc; reflexivity|].
  assert (LO : o = length (soup_text l) + 1 + length name + (length (render_attrs attrs) + length sp) + length an + 1).
  { unfold half_tag. rewrite !app_length. change (length (bs "<")) with 1. change (length (bs "=")) with 1. lia. }
  split; [exact N1|]. split.
  { unfold tk_text. rewrite N2, N3. cbn [Nat.add].
    replace t with ((soup_text l ++ bs "<") ++ name ++ render_attrs attrs ++ sp ++ an ++ bs "=" ++ s) by (rewrite ET; unfold half_tag; rewrite <- !app_assoc; reflexivity).
    replace (length (soup_text l) + 1) with (length (soup_text l ++ bs "<")) by (rewrite app_length; reflexivity). apply sub_mid. }
  split.
  { apply Forall_forall. intros k I. apply (in_map seen) in I. rewrite M2 in I. apply place_types in I as (w & I). cbn [fst seen] in I. apply filter_In in I as [I _].
    apply in_app_iff in I as [I|[I|[]]]; [apply attr_types in I; exact I|]. injection I as <- _. split; discriminate. }
  split; [exact N4|]. split.
  { unfold tk_text. rewrite N5, N6. cbn [Nat.add].
    replace t with ((soup_text l ++ bs "<" ++ name ++ render_attrs attrs ++ sp) ++ an ++ bs "=" ++ s) by (rewrite ET; unfold half_tag; rewrite <- !app_assoc; reflexivity).
    replace (length (soup_text l) + 1 + length name + (length (render_attrs attrs) + length sp)) with (length (soup_text l ++ bs "<" ++ name ++ render_attrs attrs ++ sp)); [apply sub_mid|].
    rewrite !app_length. change (length (bs "<")) with 1. lia. }
  change (length (bs "=")) with 1 in N9. repeat split; [exact N7|lia..].
Qed.

Variables (md : bool) (parts : list completion_participant) (providers : list provider) (lang : str).
Variables (ents : list (str * list N)) (settings : option completion_settings) (order : list (str * str) -> list (str * str)) (p : position).
Hypothesis EO : offset_at d p = o.

(** Whatever follows the '=', there is an answer. *)
Lemma answered : exists items, do_complete U d cs md parts providers lang ents settings order roots p = Ok items.
Proof.
  destruct half_tokens as (l0 & kn & m & ka & kd & l2 & HT & _ & _ & _ & _ & _ & D1 & D2 & D3).
  assert (LO : 1 <= o) by (unfold half_tag; rewrite !app_length; change (length (bs "=")) with 1; lia).
  apply (C58_completion U d cs void roots _ md parts providers lang ents settings order p HD HP HT).
  - intros a LA H. destruct (Nat.eq_dec a (offset_at d p)) as [->|NE]; [lia|exfalso]. rewrite EO in *. destruct (H (o - 1)) as (c & C & K); [lia|].
    assert (TT : t = (soup_text l ++ bs "<" ++ name ++ render_attrs attrs ++ sp ++ an) ++ bs "=" ++ s) by (rewrite ET; unfold half_tag; rewrite <- !app_assoc; reflexivity).
    rewrite TT, nth_error_app2 in C; [|unfold half_tag; rewrite !app_length; change (length (bs "=")) with 1; lia].
    match type of C with nth_error _ ?x = _ => replace x with 0 in C end; [|unfold half_tag; rewrite !app_length; change (length (bs "=")) with 1; lia].
    cbn in C. injection C as <-. unfold alnum in K. lia.
  - intros k I (K1 & K2 & _). rewrite EO in K2. pose proof (doc_tiles U t cs _ (do_utf8 d HD) HT) as TL.
    assert (k = kd); [|congruence]. eapply (tiles_cover_inj _ _ _ k kd (o - 1)); [exact TL|exact I|apply in_elt|lia..].
Qed.

(** The element of the unfinished tag has the name written in it. *)
Lemma half_node n : start_tag_at roots n (offset_at d p) -> n_tag n = Some name.
Proof.
  intros (I & S & M & _). destruct half_tokens as (l0 & kn & m & ka & kd & l2 & HT & K1 & K2 & K3 & K4 & K5 & D1 & D2 & D3).
  assert (LO : 1 <= o) by (unfold half_tag; rewrite !app_length; change (length (bs "=")) with 1; lia).
  assert (IT : tk_state kd = BeforeAttributeValue).
  { assert (Ik : In kd ((l0 ++ kn :: m ++ [ka]) ++ kd :: l2)) by apply in_elt.
    destruct (doc_step U d cs _ HT kd Ik) as (a & b & S' & _ & B). rewrite <- B in D1 |- *. cbn [token_of tk_type tk_state] in *. apply scan_outcome in S'; [|apply HD].
    inversion S'; subst; cbn [finish tok st] in *; try congruence; auto; inversion H1; subst; cbn [finish tok st] in *; congruence. }
  destruct (complete_in_tag U d cs void roots _ HD HP HT md parts providers lang ents settings order p _ kd l2 eq_refl ltac:(lia) ltac:(rewrite IT; reflexivity) ltac:(congruence))
    as (n' & ps & pre & op & ks & q & post & sc & _ & I' & E1 & E2 & O1 & O2 & F & _ & _ & _ & TG & L & LAST & _).
  assert (n = n') as <-.
  { apply (same_start U d cs void roots HD HP); auto. specialize (M n' I' ltac:(lia)). specialize (LAST n I S). lia. }
  rewrite TG; [| |congruence].
  - assert (X : exists u, ks = u ++ kn :: m ++ [ka]).
    { clear - E1 O1 K1 K3 K4. apply split_eq in E1 as [(r & -> & E)|(r & E & ->)]; [|].
      - exfalso. assert (J : In op (m ++ [ka])) by (rewrite E; apply in_elt). apply in_app_iff in J as [J|[<-|[]]]; [|congruence]. rewrite Forall_forall in K3. apply K3 in J. tauto.
      - destruct r as [|y r]; cbn [app] in E; injection E as E0 E; [subst; congruence|]. exists r. exact E. }
    destruct X as (u & ->). rewrite <- K2. apply tag_in_last; [exact K1|]. apply Forall_app. split; [|repeat constructor; congruence]. eapply Forall_impl; [|exact K3]. cbn. tauto.
  - rewrite IT. discriminate.
Qed.
End Value.

(** ** The theorems *)
(** '=' was typed behind the name of an attribute, in a start tag behind a sequence of parts. Whatever follows, there is
    an answer: what the participants say about the tag and the attribute, and then the values that the data in use have
    for that attribute of that tag, each to be put, in quotes, in the place of the value that is there, if any. *)
Theorem C94_values : forall U cs void d l name attrs sp an s roots md parts providers lang ents settings order p,
  good_soup U cs void l -> good_name U name -> Forall good_attr attrs -> good_attr (mkHAttr sp an NoValue) ->
  textdoc_ok d -> d_text d = soup_text l ++ half_tag name attrs sp an ++ s -> parse U (d_text d) cs void = Ok roots ->
  let o := length (soup_text l) + length (half_tag name attrs sp an) in offset_at d p = o ->
  exists from values e, do_complete U d cs md parts providers lang ents settings order roots p = Ok (from ++ values) /\
    value_from (d_text d) o e /\
    from = flat_map (fun q => cp_value q (if cs then name else lower U name) (if cs then an else lower U an) [] (range_at d o e)) parts /\
    (forall y, In y (map ci_label values) <-> exists q v, in_use providers lang settings q /\ In v (pv_values q name an) /\ y = v_name v) /\
    forall i, In i values -> ci_format i = Some FPlain /\ ci_edit i = Some (range_at d o e, bs """" ++ ci_label i ++ bs """").
Proof.
  intros U cs void d l name attrs sp an s roots md parts providers lang ents settings order p G GN GA Ga HD ET HP o EO.
  destruct (answered U cs void d l name attrs sp an s roots G GN GA Ga HD ET HP md parts providers lang ents settings order p EO) as (items & C).
  destruct (half_tokens U cs void d l name attrs sp an s roots G GN GA Ga HD ET HP) as (l0 & kn & m & ka & kd & l2 & HT & K1 & K2 & K3 & K4 & K5 & D1 & D2 & D3). fold o in D2, D3.
  assert (LO : 1 <= o) by (unfold o, half_tag; rewrite !app_length; change (length (bs "=")) with 1; lia).
  destruct (C51_value_edits U d cs void roots _ kd l2 md parts providers lang ents settings order p items HD HP HT (or_intror D1) ltac:(lia) C)
    as (n & x & ka' & from & values & wa & we & a & e & prefix & SA & TX & V & -> & _ & VD & _ & NQ & FR & LB & ED).
  rewrite (half_node U cs void d l name attrs sp an s roots G GN GA Ga HD ET HP md parts providers lang ents settings order p EO n SA) in TX. apply Some_inj in TX. subst x.
  assert (V' : value_name (l0 ++ kn :: m ++ [ka]) ka) by (exists (l0 ++ kn :: m), []; rewrite <- app_assoc; auto).
  pose proof (value_name_unique _ _ _ V V') as ->. fold (tk_text (d_text d) ka) in FR, LB, ED. rewrite K5 in FR, LB, ED. rewrite EO in *.
  destruct (VD D1) as [-> VF]. assert (Q : ~ (tk_type kd = AttributeValue /\ exists c, nth_error (d_text d) (tk_off kd) = Some c /\ (c = 34%N \/ c = 39%N))) by (intros [Q _]; congruence).
  destruct (NQ Q) as (-> & -> & ->). exists from, values, we. split; [exact C|]. split; [exact VF|]. split.
  { rewrite FR. unfold sub. rewrite Nat.sub_diag. reflexivity. }
  split; [exact LB|]. intros i I. destruct (ED i I) as (q & v & _ & _ & -> & _ & E & F & _). split; [exact F|]. apply E. exact Q.
Qed.
Print Assumptions C94_values.

(** If no value is there, because the text ends or white space or a '>' comes next, nothing is replaced, and accepting
    one of the values puts it, in quotes, behind the '='. *)
Theorem C94_accepted : forall U cs void d l name attrs sp an s roots md parts providers lang ents settings order p,
  good_soup U cs void l -> good_name U name -> Forall good_attr attrs -> good_attr (mkHAttr sp an NoValue) ->
  textdoc_ok d -> d_text d = soup_text l ++ half_tag name attrs sp an ++ s -> parse U (d_text d) cs void = Ok roots ->
  offset_at d p = length (soup_text l) + length (half_tag name attrs sp an) ->
  (s = [] \/ exists b r, s = b :: r /\ (is_ws b = true \/ b = 62%N)) ->
  exists from values, do_complete U d cs md parts providers lang ents settings order roots p = Ok (from ++ values) /\
    (forall q v, in_use providers lang settings q -> In v (pv_values q name an) -> exists i, In i values /\ ci_label i = v_name v) /\
    forall i, In i values -> accepted d i (soup_text l ++ half_tag name attrs sp an ++ (bs """" ++ ci_label i ++ bs """") ++ s).
Proof.
  intros U cs void d l name attrs sp an s roots md parts providers lang ents settings order p G GN GA Ga HD ET HP EO SS. assert (HU : Utf8 (d_text d)) by apply HD.
  destruct (C94_values U cs void d l name attrs sp an s roots md parts providers lang ents settings order p G GN GA Ga HD ET HP EO) as (from & values & e & C & VF & _ & LB & ED).
  exists from, values. split; [exact C|]. split.
  { intros q v Q I. assert (J : In (v_name v) (map ci_label values)) by (apply LB; eauto). apply in_map_iff in J as (i & <- & J). eauto. }
  set (o := length (soup_text l) + length (half_tag name attrs sp an)) in *.
  assert (A : skipn o (d_text d) = s) by (rewrite ET; unfold o; rewrite app_assoc, <- app_length, skipn_app, skipn_all, Nat.sub_diag; reflexivity).
  assert (e = o) as ->.
  { assert (N0 : forall k, nth_error (d_text d) o = Some k -> k <> 34%N /\ k <> 39%N).
    { intros k K. rewrite <- (Nat.add_0_r o), <- skipn_nth_error, A in K. destruct SS as [-> |(b & r & -> & B)]; [discriminate|]. cbn in K. injection K as ->. unfold is_ws in B. lia. }
    destruct VF as [(_ & _ & _ & n & N & R & _)|[(q & Q & K & _)|[-> _]]]; [exfalso|exfalso|reflexivity].
    - rewrite A in R. destruct SS as [-> |(b & r & -> & B)]; [cbn in R; lia|].
      assert (LB' : (b < 128)%N) by (unfold is_ws in B; lia). assert (VC : val_char b = false) by (unfold val_char, is_uspace; unfold is_ws in B; lia).
      cbn [char_run] in R. replace (b <? 128)%N with true in R by lia. rewrite VC in R. lia.
    - apply N0 in K. unfold SQUOTE, DQUOTE in Q. destruct Q; subst q; tauto. }
  intros i I. destruct (ED i I) as [F E]. eexists _, _, _. split; [exact E|]. split; [rewrite F; discriminate|]. split; [intros _; reflexivity|]. unfold edited. cbn [map fst snd].
  assert (B : Bd (d_text d) o).
  { destruct (do_offset d HD p) as [O1 O2]. rewrite EO in O1, O2. apply boundary_Bd; auto. }
  destruct (range_text d _ _ HD B B) as (_ & -> & ->). rewrite (replace_one (soup_text l ++ half_tag name attrs sp an) [] s).
  - rewrite <- !app_assoc. reflexivity.
  - rewrite ET, <- !app_assoc. reflexivity.
  - rewrite app_length. reflexivity.
  - rewrite app_length. cbn [length]. unfold o. lia.
Qed.
Print Assumptions C94_accepted.

(** ** Documents of this kind *)
Definition value_demo : str := half_tag (bs "input") [mkHAttr (bs " ") (bs "id") NoValue] (bs " ") (bs "type").
Example C94_text : soup_text mixed ++ value_demo = bs "<ul><li>a<li>b</UL></p><b><br><input id type=".
Proof. reflexivity. Qed.
(** The text ends there; the tag ends there; a value is there already, without quotes; so is a quote that is not closed. *)
Example C94_answers : let o := length (soup_text mixed ++ value_demo) in
  map (fun s => names_at (soup_text mixed ++ value_demo ++ s) o) [[]; bs "></b></x>"; bs "te x<p>"; bs "'<ul>"] =
  map (fun e => Ok [(bs "text", Some (rng0 45 e, bs """text""")); (bs "button", Some (rng0 45 e, bs """button"""))]) [45; 45; 47; 50].
Proof. vm_compute. reflexivity. Qed.
(** The second meets the conditions of the theorems. *)
Example C94_mixed : let d := utf16_doc (soup_text mixed ++ value_demo ++ bs "></b></x>") in let o := length (soup_text mixed) + length value_demo in exists roots,
  good_soup demo_unicode false html5_void mixed /\ good_name demo_unicode (bs "input") /\ Forall good_attr [mkHAttr (bs " ") (bs "id") NoValue] /\ good_attr (mkHAttr (bs " ") (bs "type") NoValue) /\
  textdoc_ok d /\ parse demo_unicode (d_text d) false html5_void = Ok roots /\ offset_at d (position_at d o) = o.
Proof.
  set (d := utf16_doc (soup_text mixed ++ value_demo ++ bs "></b></x>")). cbn zeta. assert (HU : Utf8 (d_text d)) by (apply ascii_utf8; reflexivity).
  destruct (parse demo_unicode (d_text d) false html5_void) as [r| |] eqn:E; [|exfalso; vm_compute in E; discriminate..].
  exists r. split; [exact mixed_good|].
  split; [name|]. split; [apply Forall_cons; [attr_tac; exact I|apply Forall_nil]|]. split; [attr_tac; exact I|].
  split; [apply C27_contract, HU|]. split; [reflexivity|vm_compute; reflexivity].
Qed.
