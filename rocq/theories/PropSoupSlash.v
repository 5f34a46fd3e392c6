(** * C92: the end tags proposed, whatever follows *)
From Verif Require Import SelectionRange PropTags PropSelection Base BaseFacts Stream Scanner ScannerFacts ScanStep ScanProps ScanShape ScanPanic Tree
  Parser ParseSpec ParseInv ParseOrder PropParse TreeFacts PropTree ParseEnd PropEnd TextDoc PropDoc
  SelAttr TokenLoop NodeScan DataManager PropData BuiltinData Entities Hover Completion PropTagComplete PropHover PropComplete PropEdits PropAnswers PropProposals
  Render RenderFacts PropRender PropRename ScanComplete ParseKeep Lexing PropTokens PropTagDoc PropHoverTree PropTyped PropSoup PropSoupTyping PropSoupComplete PropSoupInside.
From Verif Require TokenRun.
From Coq Require Import ZifyBool ZifyNat ZifyN.

(** ** The '</' and what is open there *)
Section Slash.
Variables (U : unicode) (d : textdoc) (cs : bool) (void : list str) (roots : list node) (l : list part) (s : str) (left : list str) (ns : list node).
Hypothesis HD : textdoc_ok d.
Hypothesis ET : d_text d = soup_text l ++ bs "</" ++ s.
Hypothesis HP : parse U (d_text d) cs void = Ok roots.
Hypothesis G : good_soup U cs void l.
Hypothesis D : denotes U cs [] 0 l (length (soup_text l)) left ns.
Notation e := (length (soup_text l)).
Lemma slash_front : exists ks k, doc_tokens U (d_text d) cs = Ok ks /\ In k ks /\ tk_type k = EndTagOpen /\ tk_off k = e /\ tk_end k = e + 2 /\ finished ks (e + 2) /\
  (left = [] -> forall y, ~ innermost_open roots e y) /\
  (forall left0 x, left = left0 ++ [x] -> ~ ends_next U cs (d_text d) e x ->
     exists A B y, innermost_left U cs l left0 x A B /\ n_start y = length (soup_text A) /\ n_tag y = Some x /\ innermost_open roots e y).
Proof.
  assert (HU : Utf8 (d_text d)) by apply HD. destruct (node_facts _ _ _ _ _ HU HP) as (ks & HT & _).
  destruct (front_run U d cs void roots l (47%N :: s) HD ET HP G _ ns D) as (sc & pp & R & S & P & A & FN & F).
  set (sc3 := finish sc (pos sc) EndTagOpen None (pos sc + 2) AfterOpeningEndTag).
  set (p3 := mkP (cur pp) (parents pp) (Some (pos sc)) None (pending pp)). rewrite <- P in A.
  pose proof (at_len _ _ _ A) as LA. cbn [length] in LA.
  assert (R3 : run U (d_text d) cs void sc pp sc3 p3).
  { apply one; [exact HU|..]; cbn [tok finish pos sc3]; try discriminate; try lia.
    - apply O_end_tag_open; auto; [left; auto|eapply at_first; exact A|rewrite (at_nth _ _ _ _ A); reflexivity].
    - apply A.
    - reflexivity. }
  pose proof (run_trans _ _ _ _ _ _ _ _ _ _ R R3) as RC.
  exists ks, (token_of sc3). split; [exact HT|]. split; [apply (last_token U (d_text d) cs void ks HU HT _ sc3 p3 RC); cbn; lia|].
  split; [reflexivity|]. split; [exact P|]. split; [cbn; lia|]. split.
  { destruct (run_doc U (d_text d) cs void HU _ _ _ _ RC HT) as (m & l2 & -> & _ & F1 & F2). intros k K L.
    apply in_app_iff in K as [K|K].
    - apply in_map_iff in K as (z & <- & K). rewrite Forall_forall in F1. apply F1 in K. cbn. auto.
    - rewrite Forall_forall in F2. apply F2 in K. unfold sc3 in K. cbn in K. lia. }
  assert (LT : forall m, In m (doc_nodes roots) -> PropEnd.open_at e m -> n_start m < e).
  { intros m M (s1 & O1 & O2 & _). pose proof (span U d cs void roots HD HP m M) as (_ & _ & SP). rewrite O1 in SP. destruct (n_ets m); lia. }
  split.
  - intros E y (Y & O & _). destruct (FN E y Y (LT y Y O)) as [_ Q]. contradiction.
  - intros left0 x E NE. destruct (F left0 x E) as (A0 & at0 & pd & B & kids & y & EL & DB & IY & (W1 & W2 & W3 & W4 & W5) & _ & _ & IN).
    assert (LB : length (soup_text (A0 ++ [Opening x at0 pd])) <= e) by (pose proof (denotes_end _ _ _ _ _ _ _ _ DB); lia).
    exists A0, B, y. split; [exists at0, pd, kids; auto|]. split; [exact W2|]. split; [exact W1|]. split; [exact IY|]. split.
    { eexists. split; [exact W3|]. split; [exact LB|]. destruct W5 as [[W5 W6]|W5]; [|auto]. destruct (Nat.eq_dec (n_end y) e); [right; auto|left; lia]. }
    split.
    { intros Q. apply NE. destruct (C15_end_tags _ _ _ _ _ _ _ HU HP IY Q) as (_ & nm & Wr & SN).
      rewrite W1 in SN. unfold same_name in SN. destruct nm as [z|]; [|contradiction]. exists z, (n_end y). auto. }
    intros m M O NM. destruct (IN m M (LT m M O)) as [Q|[_ Q]]; [exact Q|contradiction].
Qed.
(** What is open at the '</' is what completion finds open at the cursor behind it. *)
Lemma open_nearest ks k p n qs y x : doc_tokens U (d_text d) cs = Ok ks -> In k ks -> tk_type k = EndTagOpen -> tk_off k = e -> tk_end k = offset_at d p ->
  finished ks (offset_at d p) -> find_node_before roots (offset_at d p) = Ok (Some (n, qs)) -> n_tag y = Some x ->
  (nearest roots (offset_at d p) (fun m => m = n \/ inside n m) y x -> exists y', innermost_open roots e y') /\
  (innermost_open roots e y -> nearest roots (offset_at d p) (fun m => m = n \/ inside n m) y x).
Proof.
  intros HT K KT KO KE FI F TY. pose proof (fun z => slash_find U d cs void roots ks HD HP HT k (offset_at d p) n qs K KT KE (finished_whole _ _ FI) F z) as SF. rewrite KO in SF.
  pose proof (up_whole U d cs void roots HD HP p n qs F) as UW. destruct (up_sorted U d cs void roots HD HP p n qs F) as (SS & _).
  assert (UC : forall m, unclosed (offset_at d p) m = true <-> still_open (offset_at d p) m).
  { intros m. unfold unclosed, still_open. destruct (n_closed m); cbn [negb orb].
    - destruct (n_ets m) as [b|]; split; [intros Q; right; exists b; split; [reflexivity|lia]|intros [Q|(b' & Q1 & Q2)]; [discriminate|injection Q1 as <-; lia]|discriminate|intros [Q|(b' & Q1 & Q2)]; discriminate].
    - tauto. }
  split.
  - intros (Y & PY & _ & SO & _). assert (IY : In y (n :: rev qs)) by (apply UW; auto). apply UC in SO.
    destruct (find (unclosed (offset_at d p)) (n :: rev qs)) as [y'|] eqn:E; [exists y'; apply SF; reflexivity|]. pose proof (List.find_none _ _ E y IY). congruence.
  - intros I. apply SF in I. destruct (List.find_some _ _ I) as [IY U1]. apply UW in IY as [Y PY]. split; [exact Y|]. split; [exact PY|]. split; [exact TY|]. split; [apply UC; exact U1|].
    intros m M PM _ SO. eapply find_first; eauto; [apply UW; auto|apply UC; exact SO].
Qed.
End Slash.

(** ** The theorems *)
(** '</' was typed behind a sequence of parts. Whatever follows, completion proposes the end tag of the innermost element left open
    and nothing else, unless the '</' already begins it. It replaces the name behind the '</', if there is one. *)
Theorem C92_end_tag : forall U cs void d l s left0 x ns roots md parts providers lang ents settings order p items,
  good_soup U cs void l -> denotes U cs [] 0 l (length (soup_text l)) (left0 ++ [x]) ns ->
  textdoc_ok d -> d_text d = soup_text l ++ bs "</" ++ s -> parse U (d_text d) cs void = Ok roots -> offset_at d p = length (soup_text l) + 2 ->
  ~ ends_next U cs (d_text d) (length (soup_text l)) x ->
  do_complete U d cs md parts providers lang ents settings order roots p = Ok items ->
  exists A B b i, innermost_left U cs l left0 x A B /\ name_from U (d_text d) (offset_at d p) b /\ items = [i] /\
    PropProposals.closes d (offset_at d p) (length (soup_text A)) (length (soup_text l) + 1) b x i.
Proof.
  intros U cs void d l s left0 x ns roots md parts providers lang ents settings order p items G D HD ET HP EO NE C.
  destruct (slash_front U d cs void roots l s _ ns HD ET HP G D) as (ks & k & HT & K & KT & KO & KE & FI & _ & OP).
  destruct (OP left0 x eq_refl NE) as (A & B & y & IL & SY & TY & IO). rewrite <- EO in KE, FI.
  destruct (found_total U d cs void roots HD HP (offset_at d p)) as ([[n qs]|] & F).
  2:{ exfalso. destruct IO as (Y & (s1 & O1 & O2 & _) & _). pose proof (found_none U d cs void _ HD HP _ F y Y) as L.
      pose proof (span U d cs void roots HD HP y Y) as (_ & _ & SP). rewrite O1 in SP. destruct (n_ets y); lia. }
  destruct (C69_end_open U d cs void roots ks md parts providers lang ents settings order p k n qs items HD HP HT K KT ltac:(lia) F C) as (b & NF & _ & CL & _).
  destruct (CL y x) as (i & I1 & I2); [eapply open_nearest; eauto|]. exists A, B, b, i. split; [exact IL|]. split; [apply NF; auto|]. split; [exact I1|]. rewrite SY, KO in I2. exact I2.
Qed.
Print Assumptions C92_end_tag.

(** When no element is left open, the end tags of all tags are proposed, or nothing in front of the first element. *)
Theorem C92_nothing_open : forall U cs void d l s ns roots md parts providers lang ents settings order p items,
  good_soup U cs void l -> denotes U cs [] 0 l (length (soup_text l)) [] ns ->
  textdoc_ok d -> d_text d = soup_text l ++ bs "</" ++ s -> parse U (d_text d) cs void = Ok roots -> offset_at d p = length (soup_text l) + 2 ->
  do_complete U d cs md parts providers lang ents settings order roots p = Ok items ->
  ((forall m, In m (doc_nodes roots) -> offset_at d p <= n_start m) -> items = []) /\
  ((exists m, In m (doc_nodes roots) /\ n_start m < offset_at d p) ->
   forall x doc, In (x, doc) (map (fun i => (ci_label i, ci_doc i)) items) <->
     exists q td, in_use providers lang settings q /\ In td (pv_tags q) /\ x = bs "/" ++ t_name td /\
       doc = as_doc (generate_documentation (t_desc td) (t_refs td) true true md)).
Proof.
  intros U cs void d l s ns roots md parts providers lang ents settings order p items G D HD ET HP EO C.
  destruct (slash_front U d cs void roots l s _ ns HD ET HP G D) as (ks & k & HT & K & KT & KO & KE & FI & NO & _). specialize (NO eq_refl). rewrite <- EO in KE, FI.
  destruct (found_total U d cs void roots HD HP (offset_at d p)) as ([[n qs]|] & F).
  - split.
    + intros ALL. exfalso. destruct (found U d cs void roots HD HP _ _ _ F) as (_ & NI & NL & _). specialize (ALL n NI). lia.
    + intros _. destruct (C69_end_open U d cs void roots ks md parts providers lang ents settings order p k n qs items HD HP HT K KT ltac:(lia) F C) as (b & _ & _ & _ & CL).
      apply CL. intros y x NY. assert (TY : n_tag y = Some x) by apply NY.
      destruct (open_nearest U d cs void roots l HD HP ks k p n qs y x HT K KT KO KE FI F TY) as [Q _]. destruct (Q NY) as (y' & IO). exact (NO y' IO).
  - split; [|intros (m & M & L); pose proof (found_none U d cs void _ HD HP _ F m M); lia].
    intros _. unfold do_complete in C. cbn zeta in C. rewrite F in C. cbn [bind] in C. apply Ok_inj in C. auto.
Qed.
Print Assumptions C92_nothing_open.

(** ** Documents of this kind *)
(** What is proposed behind [t] when [s] follows. *)
Definition labels_in (t s : str) : res (list (str * option str)) :=
  let d := utf16_doc (t ++ s) in
  do roots <- parse demo_unicode (d_text d) false html5_void;
  do items <- do_complete demo_unicode d false false [] [edits_provider] (bs "html") [] None (fun l => l) roots (position_at d (length t));
  Ok (map (fun i => (ci_label i, option_map snd (ci_edit i))) items).
Example C92_answers :
  map (fun x => labels_in (fst x) (snd x))
    [(soup_text mixed ++ bs "</", bs "</div><i>x"); (soup_text mixed ++ bs "</", bs "></ul>"); (open_text ++ bs "</", bs "</li></ul>"); (open_text ++ bs "</b></", bs "<p class=");
     (soup_text mixed ++ bs "</", bs "q x></b>"); (open_text ++ bs "</ul></", bs "</div>"); (bs "x</", bs "</div>")] =
  [Ok [(bs "/b", Some (bs "/b>"))]; Ok [(bs "/b", Some (bs "/b"))]; Ok [(bs "/b", Some (bs "/b>"))]; Ok [(bs "/li", Some (bs "/li>"))];
   Ok [(bs "/b", Some (bs "/b>"))]; Ok [(bs "/p", None); (bs "/input", None)]; Ok []].
Proof. vm_compute. reflexivity. Qed.
(** The first of them meets the conditions of the theorem: those of C88, and there is an answer. *)
Example C92_mixed : let d := utf16_doc (soup_text mixed ++ bs "</" ++ bs "</div><i>x") in let p := position_at d (length (soup_text mixed) + 2) in exists roots items,
  good_soup demo_unicode false html5_void mixed /\ denotes demo_unicode false [] 0 mixed (length (soup_text mixed)) ([] ++ [bs "b"]) mixed_nodes /\ textdoc_ok d /\
  parse demo_unicode (d_text d) false html5_void = Ok roots /\ offset_at d p = length (soup_text mixed) + 2 /\ ~ ends_next demo_unicode false (d_text d) (length (soup_text mixed)) (bs "b") /\
  do_complete demo_unicode d false false [] [edits_provider] (bs "html") [] None (fun l => l) roots p = Ok items.
Proof.
  destruct C88_mixed as (roots & H1 & H2 & H3 & H4 & H5 & H6). set (d := utf16_doc (soup_text mixed ++ bs "</" ++ bs "</div><i>x")) in *. set (p := position_at d (length (soup_text mixed) + 2)) in *. cbn zeta.
  assert (E : match (do r <- parse demo_unicode (d_text d) false html5_void; do_complete demo_unicode d false false [] [edits_provider] (bs "html") [] None (fun l => l) r p) with Ok _ => true | _ => false end = true) by (vm_compute; reflexivity).
  rewrite H4 in E. cbn [bind] in E. destruct (do_complete demo_unicode d false false [] [edits_provider] (bs "html") [] None (fun l => l) roots p) as [items| |] eqn:C; [|discriminate..].
  exists roots, items. repeat (split; [assumption|]). exact C.
Qed.
