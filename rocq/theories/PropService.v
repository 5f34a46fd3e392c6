(** * A session with the service (C60) *)
From Verif Require Import SelectionRange Base BaseFacts Stream Scanner ScannerFacts ScanStep Tree Parser ParseSpec ParseInv PropParse TextDoc PropDoc ScanProps PropScan
  TagServices DataManager BuiltinData Entities Hover Completion PropComplete PropEdits FormatFacts PropFormat Folding Uri Links PropUri PropLinks Formatter PropLinkAnswers PropAnswers PropStale Service.
From Coq Require Import ZifyBool ZifyNat ZifyN.

Section Session.
Variables (U : unicode) (L : uri_lib) (resolve : str -> str -> res (option str)) (order : list (str * str) -> list (str * str)).

(** ** No request brings a session down *)
(** A request at a cursor of the document as it is when the request is made. Links,
    folding with a limit and formatting can panic on their own (see C61, C35 and C55): links are
    asked for with the crate's own resolver in a document as in C61, formatting of a range is left
    out, folding is without limit, formatting of the whole document is asked for when every element
    that formatting reads has a name. *)
Definition plain_request (d : textdoc) (q : request) : Prop :=
  let cursor p := word_column (d_text d) (offset_at d p) p in
  match q with
  | RComplete p _ | RQuote p _ | RTag p | RHover p _ | RHighlights p | RRename p _ | RMatching p | RLinked p => cursor p
  | RSelection ps => Forall cursor ps
  | RSymbols | RSymbols2 => True
  | RFolding limit => limit = None
  | RFormat None _ => forall cs v roots, body (d_text d) v -> parse U v cs html5_void = Ok roots -> all_named roots
  | RLinks uri => uri_ok L /\ uri_closed L /\ resolve = resolve_reference L /\ with_scheme L uri /\ slash_file uri /\
      forall cs, sound_links U L uri d cs
  | RFormat (Some _) _ => False
  end.
Definition ascii_doc (d : textdoc) : Prop := textdoc_ok d /\ all_ascii (d_text d) = true.
(** Every document is ASCII; the requests are as above. The events come in any order and number:
    parsing may be forgotten, participants and providers may change in between. *)
Fixpoint plain_history (d : textdoc) (h : list event) : Prop :=
  match h with
  | [] => True
  | Edit d' _ :: h' => ascii_doc d' /\ plain_history d' h'
  | Ask q :: h' => plain_request d q /\ plain_history d h'
  | _ :: h' => plain_history d h'
  end.
Fixpoint requests (h : list event) : list request :=
  match h with
  | [] => []
  | Ask q :: h' => q :: requests h'
  | _ :: h' => requests h'
  end.
(** The reply is of the kind asked for. *)
Definition fits (q : request) (y : reply) : bool :=
  match q, y with
  | RComplete _ _, YComplete _ | RQuote _ _, YText _ | RTag _, YText _ | RHover _ _, YHover _ | RFormat _ _, YEdits _
  | RHighlights _, YRanges _ | RLinks _, YLinks _ | RSymbols, YSymbols _ | RSymbols2, YSymbols2 _ | RFolding _, YFolding _
  | RSelection _, YSelection _ | RRename _ _, YRename _ | RMatching _, YPosition _ | RLinked _, YLinked _ => true
  | _, _ => false
  end.

(** The tree at hand was parsed from some text. *)
Definition some_tree (roots : list node) : Prop :=
  exists t cs void, Utf8 t /\ parse U t cs void = Ok roots.

Lemma ascii_parse s d lang m : ascii_doc d -> exists roots, parse_html_document U s d lang m = Ok roots /\ some_tree roots.
Proof.
  intros [D A]. unfold parse_html_document.
  destruct (C11_parse_clean U (d_text d) (sv_cs s) (get_void_elements (dm_providers m) lang) (do_utf8 d D)) as (roots & E).
  - apply (ascii_clean _ A).
  - intros t' c E SC. destruct (ascii_clean _ A) as [_ X]. eapply X; eauto.
  - exists roots. split; auto. exists (d_text d), (sv_cs s), (get_void_elements (dm_providers m) lang). split; auto. apply (do_utf8 d D).
Qed.

Lemma selections U0 d roots cs ps : Forall (fun p => exists r, get_selection_range U0 d p roots cs = Ok r) ps ->
  exists r, get_selection_ranges U0 d ps roots cs = Ok r.
Proof.
  induction 1 as [|a l (b & E) _ (r & R)]; cbn [get_selection_ranges]; eauto. rewrite E. cbn [bind]. rewrite R. cbn [bind]. eauto.
Qed.

Lemma request_answered s d lang m roots q : ascii_doc d -> some_tree roots -> plain_request d q ->
  exists y, answer U L resolve order s d lang m roots q = Ok y /\ fits q y = true.
Proof.
  intros [D A] (t0 & cs0 & void0 & H0 & HP) PL.
  assert (O : forall cs p, word_column (d_text d) (offset_at d p) p -> _) by (intros cs p CO; exact (C59_outdated U t0 cs0 void0 roots U d cs p H0 HP D A CO)).
  destruct q; cbn [plain_request answer] in *; try contradiction.
  - destruct (O (sv_complete_cs s) p PL) as (_ & _ & _ & _ & _ & _ & _ & _ & X).
    edestruct X as (r & ->). cbn [bind]. eauto.
  - destruct (O (sv_complete_cs s) p PL) as (_ & _ & _ & _ & _ & _ & _ & X & _). edestruct X as (r & ->). cbn [bind]. eauto.
  - destruct (O (sv_complete_cs s) p PL) as (_ & _ & _ & _ & _ & _ & X & _). edestruct X as (r & ->). cbn [bind]. eauto.
  - destruct (O (sv_hover_cs s) p PL) as (_ & _ & _ & _ & _ & X & _). edestruct X as (r & ->). cbn [bind]. eauto.
  - destruct r; [contradiction|]. pose proof (trim_left_body _ (do_utf8 d D)) as B. set (v := trim_left (d_text d)) in *.
    assert (AV : all_ascii v = true).
    { destruct B as (w & E & _). unfold all_ascii in *. rewrite E, forallb_app in A. apply andb_prop in A. tauto. }
    pose proof (C55_whole U d o (sv_cs s) v D B) as W.
    destruct (C11_parse_clean U v (sv_cs s) html5_void (ascii_utf8 v AV)) as (rs & E).
    + apply (ascii_clean _ AV).
    + intros t' c E SC. destruct (ascii_clean _ AV) as [_ X]. eapply X; eauto.
    + rewrite E in W. destruct W as [[_ (e & ->)]|[(n & I & NT) _]]; [cbn [bind]; eauto|].
      exfalso. apply (PL _ _ _ B E n I NT).
  - destruct (O (sv_cs s) p PL) as (_ & _ & _ & X & _). destruct X as (r & ->). cbn [bind]. eauto.
  - destruct PL as (LO & LC & -> & WS & SF & SL).
    destruct (C61_links U L uri d (sv_cs s) D (ascii_clean _ A) LO LC WS SF (SL _)) as (r & ->). cbn [bind]. eauto.
  - eauto.
  - eauto.
  - subst limit. destruct (C58_folding U d (sv_cs s) (get_void_elements (dm_providers m) lang) D (ascii_clean _ A)) as (r & ->). cbn [bind]. eauto.
  - assert (X : exists r, get_selection_ranges U d ps roots (sv_cs s) = Ok r).
    { apply selections. eapply Forall_impl; [|exact PL]. intros p CO.
      destruct (O (sv_cs s) p CO) as (_ & _ & _ & _ & X & _). exact X. }
    destruct X as (r & ->). cbn [bind]. eauto.
  - destruct (O (sv_cs s) p PL) as (_ & _ & X & _). destruct (X name) as (r & ->). cbn [bind]. eauto.
  - destruct (O (sv_cs s) p PL) as (_ & X & _). destruct X as (r & ->). cbn [bind]. eauto.
  - destruct (O (sv_cs s) p PL) as (X & _). destruct X as (r & ->). cbn [bind]. eauto.
Qed.

Lemma session_runs h : forall x, ascii_doc (ss_doc x) -> some_tree (ss_roots x) -> plain_history (ss_doc x) h ->
  exists x' ys, run U L resolve order h x = Ok (x', ys) /\ Forall2 (fun q y => fits q y = true) (requests h) ys.
Proof.
  induction h as [|e h IH]; intros x AD ST PH; [exists x, []; split; [reflexivity|constructor]|].
  destruct e; cbn [plain_history requests run step] in *.
  - destruct PH as [A PH]. cbn [bind fst snd]. set (x1 := mkSession _ _ _ _ _). destruct (IH x1 A ST PH) as (x' & ys & -> & F). cbn [bind fst snd]. eauto.
  - destruct (ascii_parse (ss_service x) (ss_doc x) (ss_lang x) (ss_manager x) AD) as (roots & -> & T). cbn [bind fst snd].
    set (x1 := mkSession _ _ _ _ _). destruct (IH x1 AD T PH) as (x' & ys & -> & F). cbn [bind fst snd]. eauto.
  - cbn [bind fst snd]. set (x1 := mkSession _ _ _ _ _). destruct (IH x1 AD ST PH) as (x' & ys & -> & F). cbn [bind fst snd]. eauto.
  - cbn [bind fst snd]. set (x1 := mkSession _ _ _ _ _). destruct (IH x1 AD ST PH) as (x' & ys & -> & F). cbn [bind fst snd]. eauto.
  - cbn [bind fst snd]. set (x1 := mkSession _ _ _ _ _). destruct (IH x1 AD ST PH) as (x' & ys & -> & F). cbn [bind fst snd]. eauto.
  - destruct PH as [PQ PH].
    destruct (request_answered (ss_service x) (ss_doc x) (ss_lang x) (ss_manager x) (ss_roots x) q AD ST PQ) as (y & -> & FY). cbn [bind fst snd].
    destruct (IH x AD ST PH) as (x' & ys & -> & F). cbn [bind fst snd]. exists x', ([y] ++ ys). split; auto. constructor; auto.
Qed.

Theorem C60_session : forall o use_default customs d lang h, ascii_doc d -> plain_history d h ->
  exists x x' ys, open_session U o use_default customs d lang = Ok x /\ run U L resolve order h x = Ok (x', ys) /\
    Forall2 (fun q y => fits q y = true) (requests h) ys.
Proof.
  intros o ud customs d lang h AD PH. unfold open_session.
  destruct (ascii_parse (service_new o) d lang (create_data_manager U (service_new o) ud customs) AD) as (roots & -> & T). cbn [bind].
  set (x := mkSession _ _ _ _ _). destruct (session_runs h x AD T PH) as (x' & ys & R & F). exists x, x', ys. auto.
Qed.

(** ** The service keeps nothing but what it was told last *)
(** What was told last, read off the history: the participants, the providers, the document. *)
Fixpoint last_of {A} (f : event -> option A) (h : list event) (a : A) : A :=
  match h with
  | [] => a
  | e :: h' => last_of f h' (match f e with Some b => b | None => a end)
  end.
Definition told_completion (e : event) := match e with SetCompletionParticipants ps => Some ps | _ => None end.
Definition told_hover (e : event) := match e with SetHoverParticipants ps => Some ps | _ => None end.
Definition told_providers (e : event) := match e with SetProviders b ps => Some (b, Some ps) | _ => None end.
Definition told_document (e : event) := match e with Edit d lang => Some (d, lang) | _ => None end.
(** The events up to the last parse. *)
Fixpoint until_parse (h : list event) : list event :=
  match h with
  | [] => []
  | e :: h' =>
      match until_parse h' with
      | [] => match e with Reparse => [Reparse] | _ => [] end
      | h1 => e :: h1
      end
  end.

Section Fresh.
Variables (o : options) (start : bool * option (list provider)) (opened : textdoc * str).
(** A service made anew, told what was told last. *)
Definition fresh_service (h : list event) : service :=
  set_hover_participants (last_of told_hover h []) (set_completion_participants (last_of told_completion h []) (service_new o)).
Definition fresh_manager (h : list event) : manager :=
  let '(b, ps) := last_of told_providers h start in create_data_manager U (service_new o) b ps.
Definition doc_of (h : list event) : textdoc := fst (last_of told_document h opened).
Definition lang_of (h : list event) : str := snd (last_of told_document h opened).
(** The tree of the document that was current at the last parse, by the providers of that time. *)
Definition fresh_tree (h : list event) : res (list node) :=
  let g := until_parse h in parse_html_document U (service_new o) (doc_of g) (lang_of g) (fresh_manager g).

Lemma last_snoc A (f : event -> option A) h e a : last_of f (h ++ [e]) a = match f e with Some b => b | None => last_of f h a end.
Proof. revert a. induction h as [|e' h IH]; intros a; cbn [app last_of]; [destruct (f e); auto|apply IH]. Qed.
Lemma until_snoc h e : until_parse (h ++ [e]) = match e with Reparse => h ++ [Reparse] | _ => until_parse h end.
Proof.
  induction h as [|e' h IH]; cbn [app until_parse]; [destruct e; auto|]. rewrite IH. destruct e; auto. destruct (h ++ [Reparse]) eqn:X; auto.
  apply app_eq_nil in X as [_ X]. discriminate.
Qed.
Lemma run_app h1 h2 : forall x, run U L resolve order (h1 ++ h2) x =
  (do a <- run U L resolve order h1 x; do b <- run U L resolve order h2 (fst a); Ok (fst b, snd a ++ snd b)).
Proof.
  induction h1 as [|e h IH]; intros x; cbn [app run bind fst snd].
  - destruct (run U L resolve order h2 x) as [[x' ys]| |]; reflexivity.
  - destruct (step U L resolve order e x) as [[x1 y1]| |]; cbn [bind fst snd]; auto. rewrite IH.
    destruct (run U L resolve order h x1) as [[x2 y2]| |]; cbn [bind fst snd]; auto.
    destruct (run U L resolve order h2 x2) as [[x3 y3]| |]; cbn [bind fst snd]; auto. rewrite app_assoc. reflexivity.
Qed.

Lemma manager_again b ps h : manager_set U b ps (fresh_manager h) = create_data_manager U (service_new o) b (Some ps).
Proof. unfold fresh_manager. destruct (last_of told_providers h start) as [b0 p0]. reflexivity. Qed.
Lemma fresh_cs h : sv_cs (fresh_service h) = sv_cs (service_new o).
Proof. reflexivity. Qed.

Lemma state_told h : forall x x' ys, open_session U o (fst start) (snd start) (fst opened) (snd opened) = Ok x -> run U L resolve order h x = Ok (x', ys) ->
  fresh_tree h = Ok (ss_roots x') /\ ss_service x' = fresh_service h /\ ss_manager x' = fresh_manager h /\ ss_doc x' = doc_of h /\ ss_lang x' = lang_of h.
Proof.
  induction h as [|e h IH] using rev_ind; intros x x' ys OP R.
  - cbn [run] in R. inversion R; subst x' ys. unfold open_session in OP. unfold fresh_tree, fresh_manager, doc_of, lang_of. cbn [until_parse last_of].
    destruct start as [b ps]. cbn [fst snd] in OP. destruct (parse_html_document _ _ _ _ _) as [roots| |]; try discriminate. cbn [bind] in OP. inversion OP; subst x.
    auto.
  - rewrite run_app in R. destruct (run U L resolve order h x) as [[x1 y1]| |] eqn:R1; try discriminate. cbn [bind fst snd run] in R.
    destruct (IH x x1 y1 OP R1) as (I1 & I2 & I3 & I4 & I5). clear IH.
    destruct (step U L resolve order e x1) as [[x2 y2]| |] eqn:ST; try discriminate. cbn [bind fst snd] in R. inversion R; subst x' ys. clear R.
    unfold fresh_tree, fresh_service, doc_of, lang_of. rewrite until_snoc, !last_snoc. unfold fresh_manager. rewrite !last_snoc. fold (fresh_manager h).
    destruct e; cbn [step told_completion told_hover told_providers told_document] in *.
    + inversion ST; subst. cbn [ss_roots ss_service ss_manager ss_doc ss_lang fst snd]. auto.
    + rewrite I2, I3, I4, I5 in ST. unfold doc_of, lang_of in *. rewrite !last_snoc. cbn [told_document].
      cbn [told_providers]. fold (fresh_manager h).
      change (parse_html_document U (fresh_service h)) with (parse_html_document U (service_new o)) in ST.
      destruct (parse_html_document _ _ _ _ _) as [roots| |]; try discriminate. cbn [bind] in ST. inversion ST; subst.
      cbn [ss_roots ss_service ss_manager ss_doc ss_lang fst snd]. auto.
    + inversion ST; subst. cbn [ss_roots ss_service ss_manager ss_doc ss_lang fst snd]. rewrite I2. auto.
    + inversion ST; subst. cbn [ss_roots ss_service ss_manager ss_doc ss_lang fst snd]. rewrite I2. auto.
    + inversion ST; subst. cbn [ss_roots ss_service ss_manager ss_doc ss_lang fst snd]. rewrite I3, manager_again. auto.
    + destruct (answer _ _ _ _ _ _ _ _ _ _) as [y| |]; try discriminate. cbn [bind] in ST. inversion ST; subst. auto.
Qed.

(** Whatever happened before, the reply to a request is the one of a service made anew that was
    told only what was told last, on the document as it is, with the tree of the last parse. *)
Theorem C60_last : forall h q x x' ys,
  open_session U o (fst start) (snd start) (fst opened) (snd opened) = Ok x ->
  run U L resolve order (h ++ [Ask q]) x = Ok (x', ys) ->
  exists roots ys0 y, fresh_tree h = Ok roots /\ ys = ys0 ++ [y] /\
    answer U L resolve order (fresh_service h) (doc_of h) (lang_of h) (fresh_manager h) roots q = Ok y.
Proof.
  intros h q x x' ys OP R. rewrite run_app in R. destruct (run U L resolve order h x) as [[x1 y1]| |] eqn:R1; try discriminate. cbn [bind fst snd run step] in R.
  destruct (state_told h x x1 y1 OP R1) as (I1 & I2 & I3 & I4 & I5). rewrite I2, I3, I4, I5 in R.
  destruct (answer _ _ _ _ _ _ _ _ _ _) as [y| |] eqn:AN; try discriminate. cbn [bind fst snd] in R. inversion R; subst.
  exists (ss_roots x'), y1, y. auto.
Qed.

(** Requests are read-only: with the requests left out the session ends in the same state. *)
Definition is_ask (e : event) : bool := match e with Ask _ => true | _ => false end.
Theorem C60_read_only : forall h x x' ys, run U L resolve order h x = Ok (x', ys) ->
  run U L resolve order (filter (fun e => negb (is_ask e)) h) x = Ok (x', []).
Proof.
  induction h as [|e h IH]; intros x x' ys R; cbn [run] in R; [inversion R; reflexivity|].
  destruct (step U L resolve order e x) as [[x1 y1]| |] eqn:ST; try discriminate. cbn [bind fst snd] in R.
  destruct (run U L resolve order h x1) as [[x2 y2]| |] eqn:R2; try discriminate. cbn [bind fst snd] in R. inversion R; subst.
  specialize (IH _ _ _ R2). destruct e; cbn [filter is_ask negb run]; try (rewrite ST; cbn [bind fst snd]; rewrite IH; cbn [bind fst snd];
    cbn [step] in ST; try (inversion ST; subst y1; reflexivity)).
  - destruct (parse_html_document _ _ _ _ _); try discriminate. cbn [bind] in ST. inversion ST; subst. reflexivity.
  - cbn [step] in ST. destruct (answer _ _ _ _ _ _ _ _ _ _); try discriminate. cbn [bind] in ST. inversion ST; subst. exact IH.
Qed.

(** The case flag of the options is the one of every part, at every time. *)
Theorem C60_case : forall h x x' ys,
  open_session U o (fst start) (snd start) (fst opened) (snd opened) = Ok x -> run U L resolve order h x = Ok (x', ys) ->
  let cs := match op_case_sensitive o with Some b => b | None => false end in
  sv_cs (ss_service x') = cs /\ sv_complete_cs (ss_service x') = cs /\ sv_hover_cs (ss_service x') = cs /\ dm_cs (ss_manager x') = cs /\
  dm_providers (ss_manager x') =
    (if fst (last_of told_providers h start) then [html_provider U (bs "html5") builtin_data cs] else []) ++
    match snd (last_of told_providers h start) with Some ps => ps | None => [] end.
Proof.
  intros h x x' ys OP R cs. destruct (state_told h x x' ys OP R) as (_ & I2 & I3 & _). rewrite I2, I3. do 3 (split; [reflexivity|]).
  unfold fresh_manager. destruct (last_of told_providers h start) as [b ps]. split; [reflexivity|]. destruct b, ps; reflexivity.
Qed.
End Fresh.
End Session.
Print Assumptions C60_session.
Print Assumptions C60_last.
Print Assumptions C60_read_only.
Print Assumptions C60_case.

(** A hover asked for without settings shows what it shows with documentation and references. *)
Theorem C60_hover_defaults : forall U L resolve order s d lang m roots p,
  answer U L resolve order s d lang m roots (RHover p None) =
  answer U L resolve order s d lang m roots (RHover p (Some {| hs_doc := true; hs_refs := true |})).
Proof. reflexivity. Qed.
Print Assumptions C60_hover_defaults.

(** ** The scanner of the service *)
(** The scanner the service hands out reads the text from its offset on without a gap; started behind a
    token after which content goes on, it gives the tokens that a scanner from the start gives from there on. *)
Theorem C60_scanner : forall U (s : service) t,
  Utf8 t ->
  (forall n o l f, o <= length t -> tokens U t false (sv_cs s) n (create_scanner o) = Ok (l, f) ->
     tiles o l (length t) /\ List.concat (map (fun k => sub t (tk_off k) (tk_end k)) l) = skipn o t) /\
  (forall n l1 k l2 f, tokens U t false (sv_cs s) n (create_scanner 0) = Ok (l1 ++ k :: l2, f) -> tk_state k = WithinContent ->
     exists f', tokens U t false (sv_cs s) n (create_scanner (tk_end k)) = Ok (l2, f')).
Proof.
  intros U s t HU. split.
  - intros n o l f L H. apply (C02_tokens_tile U t false (sv_cs s) n (create_scanner o) l f HU L H).
  - intros n l1 k l2 f H S. destruct (C10_resume U t false (sv_cs s) n _ l1 k l2 f HU H) as (f' & R & _); [rewrite S; reflexivity|].
    exists f'. rewrite S in R. exact R.
Qed.
Print Assumptions C60_scanner.
Example C60_scanner_demo : exists l1 k l2 f, tk_end k = 13 /\ map tk_type l2 = [Content] /\ tk_state k = WithinContent /\
  tokens demo_unicode (bs "<p>a</p><br/>b") false false 99 (create_scanner 0) = Ok (l1 ++ k :: l2, f).
Proof.
  destruct (tokens demo_unicode (bs "<p>a</p><br/>b") false false 99 (create_scanner 0)) as [[l f]| |] eqn:E; vm_compute in E; try discriminate.
  apply Ok_inj in E. injection E as <- <-. eexists (_ :: _ :: _ :: _ :: _ :: _ :: _ :: _ :: _ :: []), _, _, _. split; [|split; [|split; [|reflexivity]]]; reflexivity.
Qed.

(** ** A session *)
Definition page_one : textdoc := utf16_doc (bs "<ul><li>one</li></ul>").
Definition page_two : textdoc := utf16_doc (bs "<ul><li>one</li><li class=>two</li></ul><img src=x.png>").
(** The second text arrives, requests are made before it is parsed, then the providers change. *)
Definition demo_history (o : format_options) : list event :=
  [Ask RSymbols2; Ask (RRename (mkPos 0 6) (bs "dd")); Edit page_two (bs "html"); Ask (RQuote (mkPos 0 26) None);
   Ask (RHover (mkPos 0 22) None); Reparse; Ask (RQuote (mkPos 0 26) None); Ask (RMatching (mkPos 0 18)); SetProviders false [];
   Ask (RComplete (mkPos 0 17) None); Ask (RFolding None); Ask (RLinks link_uri); Ask (RFormat None o); Ask (RSelection [mkPos 0 9; mkPos 0 30])].
Definition demo_run (h : list event) : res (list reply) :=
  do x <- open_session demo_unicode (mkOptions None None) true None page_one (bs "html");
  do r <- run demo_unicode rfc_uri (resolve_reference rfc_uri) (fun m => m) h x; Ok (snd r).
Lemma demo_cursor t o p : all_ascii t = true -> o <= length t -> position_at (utf16_doc t) o = p ->
  word_column (d_text (utf16_doc t)) (offset_at (utf16_doc t) p) p.
Proof.
  intros A LE <-. pose proof (ascii_utf8 t A) as HU. pose proof (C27_contract t HU) as D.
  assert (B : is_boundary t o = true) by (apply Bd_boundary, ascii_bd; auto).
  change (d_text (utf16_doc t)) with t. rewrite (do_inv _ D) by auto. apply C58_columns; auto.
Qed.
Example C60_hypotheses : forall o, ascii_doc page_one /\ plain_history demo_unicode rfc_uri (resolve_reference rfc_uri) page_one (demo_history o).
Proof.
  assert (A1 : ascii_doc page_one) by (split; [apply C27_contract, ascii_utf8|]; reflexivity).
  assert (A2 : ascii_doc page_two) by (split; [apply C27_contract, ascii_utf8|]; reflexivity).
  intros o. split; auto. cbn [demo_history plain_history plain_request].
  split; [exact I|]. split; [apply (demo_cursor _ 6); try reflexivity; cbn; lia|]. split; auto.
  split; [apply (demo_cursor _ 26); try reflexivity; cbn; lia|].
  split; [apply (demo_cursor _ 22); try reflexivity; cbn; lia|].
  split; [apply (demo_cursor _ 26); try reflexivity; cbn; lia|].
  split; [apply (demo_cursor _ 18); try reflexivity; cbn; lia|].
  split; [apply (demo_cursor _ 17); try reflexivity; cbn; lia|].
  split; auto. split.
  { split; [apply C39_rfc_contract|]. split; [apply C61_rfc_contract|]. split; [reflexivity|].
    split; [eexists; split; [vm_compute; reflexivity|discriminate]|]. split; [discriminate|]. intros cs.
    destruct cs; (eapply plain_sound; [apply A2|vm_compute; reflexivity|vm_compute; reflexivity|vm_compute; reflexivity]). }
  split.
  { intros cs v roots B P. pose proof (trim_left_body (d_text page_two) (do_utf8 _ (proj1 A2))) as B2.
    pose proof (body_det _ _ _ B B2) as ->. clear B B2.
    assert (E : exists roots, parse demo_unicode (trim_left (d_text page_two)) cs html5_void = Ok roots /\
              forallb (fun m => match n_tag m with Some _ => true | None => false end) (flat_map rendered roots) = true)
      by (destruct cs; eexists; split; vm_compute; reflexivity).
    destruct E as (roots' & E & F). rewrite E in P. apply Ok_inj in P. subst roots'. rewrite forallb_forall in F.
    intros m I N. specialize (F m I). rewrite N in F. discriminate. }
  split; auto. constructor; [apply (demo_cursor _ 9); try reflexivity; cbn; lia|].
  constructor; [apply (demo_cursor _ 30); try reflexivity; cbn; lia|constructor].
Qed.
(** Quotes are completed once the new text is parsed. Without providers nothing but the doctype,
    the end tag and the like are proposed. *)
Definition demo_options : format_options := mkFmt 2 true false None None false None false.
Definition shape (y : reply) : list nat :=
  match y with
  | YComplete l => [1; length l] | YText o => [2; match o with Some s => length s | None => 0 end] | YHover o => [3; if o then 1 else 0]
  | YEdits l => [4; length l] | YRanges l => [5; length l] | YLinks l => [6; length l] | YSymbols l => [7; length l] | YSymbols2 l => [8; length l]
  | YFolding l => [9; length l] | YSelection l => 10 :: map (@length range) l | YRename o => [11; match o with Some l => length l | None => 0 end]
  | YPosition o => 12 :: match o with Some p => [character p] | None => [] end | YLinked o => [13]
  end.
Example C60_demo : (do r <- demo_run (demo_history demo_options); Ok (map shape r)) =
  Ok [[8; 1]; [11; 2]; [2; 0]; [3; 0]; [2; 4]; [12; 33]; [1; 2]; [9; 0]; [6; 1]; [4; 1]; [10; 5; 5]].
Proof. vm_compute. reflexivity. Qed.
