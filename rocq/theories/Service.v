(** * Service: the facade, /repo/src/html_language_service.rs *)
From Verif Require Import Base Stream Scanner Tree Parser TextDoc TagServices SelectionRange DataManager BuiltinData Entities Hover Completion
  Folding Uri Links Formatter.

(** HTMLLanguageServiceOptions, html_language_types.rs:8-19. The file system provider is never
    read by the crate and left out. *)
Record options := mkOptions { op_client : option capabilities; op_case_sensitive : option bool }.
(** HTMLLanguageService, html_language_service.rs:100-106, with the fields of HTMLCompletion
    (html_completion.rs:33-38) and HTMLHover (html_hover.rs:29-34): both keep their own copy of the
    two flags. *)
Record service := mkService {
  sv_complete_md : bool; sv_complete_parts : list completion_participant; sv_complete_cs : bool;
  sv_hover_md : bool; sv_hover_parts : list hover_participant; sv_hover_cs : bool;
  sv_cs : bool
}.
(** HTMLLanguageService::new, 109-117, HTMLCompletion::new, 41-47, HTMLHover::new, 37-43 *)
Definition service_new (o : options) : service :=
  let cs := match op_case_sensitive o with Some b => b | None => false end in
  let md := does_support_markdown (op_client o) in
  mkService md [] cs md [] cs cs.
(** set_completion_participants, 172-178 *)
Definition set_completion_participants (ps : list completion_participant) (s : service) : service :=
  mkService (sv_complete_md s) ps (sv_complete_cs s) (sv_hover_md s) (sv_hover_parts s) (sv_hover_cs s) (sv_cs s).
(** set_hover_participants, 222-224 *)
Definition set_hover_participants (ps : list hover_participant) (s : service) : service :=
  mkService (sv_complete_md s) (sv_complete_parts s) (sv_complete_cs s) (sv_hover_md s) ps (sv_hover_cs s) (sv_cs s).

(** HTMLDataManager, data_manager.rs:14-17: the providers and the flag given to the built-in one. *)
Record manager := mkManager { dm_providers : list provider; dm_cs : bool }.
Section Service.
Variable U : unicode.
Definition built_in (cs : bool) : provider := html_provider U (bs "html5") builtin_data cs.
(** create_data_manager, 129-139 *)
Definition create_data_manager (s : service) (use_default : bool) (customs : option (list provider)) : manager :=
  mkManager (manager_new (built_in (sv_cs s)) use_default customs) (sv_cs s).
(** HTMLDataManager::set_data_providers, data_manager.rs:37-51 *)
Definition manager_set (use_default : bool) (customs : list provider) (m : manager) : manager :=
  mkManager (set_data_providers (built_in (dm_cs m)) (dm_providers m) use_default customs) (dm_cs m).

(** The methods that answer. [lang] is document.language_id(). *)
Variables (L : uri_lib) (resolve : str -> str -> res (option str)) (order : list (str * str) -> list (str * str)).
Section Methods.
Variables (s : service) (d : textdoc) (lang : str) (m : manager) (roots : list node).
(** parse_html_document, 141-147, with HTMLParser::parse_document, html_parse.rs:15-36 *)
Definition parse_html_document : res (list node) :=
  parse U (d_text d) (sv_cs s) (get_void_elements (dm_providers m) lang).
(** create_scanner, 119-127 *)
Definition create_scanner (initial_offset : nat) : scanner := scanner_new initial_offset WithinContent.

(** The requests and their replies, 151-350. The settings of hover default to both flags set,
    html_hover.rs:79-86. Completion ignores its document context
    (html_completion.rs:61); the one of links is [resolve]. [order] is the order in which a hash map
    is read (see Completion.v). *)
Inductive request :=
| RComplete (p : position) (settings : option completion_settings)
| RQuote (p : position) (settings : option completion_settings)
| RTag (p : position)
| RHover (p : position) (o : option hover_settings)
| RFormat (r : option range) (o : format_options)
| RHighlights (p : position)
| RLinks (uri : str)
| RSymbols
| RSymbols2
| RFolding (limit : option nat)
| RSelection (ps : list position)
| RRename (p : position) (name : str)
| RMatching (p : position)
| RLinked (p : position).
Inductive reply :=
| YComplete (l : list item)
| YText (o : option str)
| YHover (o : option hover)
| YEdits (l : list text_edit)
| YRanges (l : list range)
| YLinks (l : list link)
| YSymbols (l : list symbol_info)
| YSymbols2 (l : list symbol)
| YFolding (l : list frange)
| YSelection (l : list (list range))
| YRename (o : option (list (range * str)))
| YPosition (o : option position)
| YLinked (o : option (list range)).
Definition answer (q : request) : res reply :=
  match q with
  | RComplete p st =>
      do l <- do_complete U d (sv_complete_cs s) (sv_complete_md s) (sv_complete_parts s) (dm_providers m) lang entities st order roots p;
      Ok (YComplete l)
  | RQuote p st => do x <- do_quote_complete U d (sv_complete_cs s) st roots p; Ok (YText x)
  | RTag p => do x <- do_tag_complete U d (sv_complete_cs s) (dm_providers m) lang roots p; Ok (YText x)
  | RHover p o =>
      do h <- do_hover U d (sv_hover_cs s) (sv_hover_md s) (sv_hover_parts s) (dm_providers m) lang entities
        (match o with Some x => x | None => mkHS true true end) p roots; Ok (YHover h)
  | RFormat r o => do l <- format U d r o (sv_cs s); Ok (YEdits l)
  | RHighlights p => do l <- find_document_highlights U d p roots (sv_cs s); Ok (YRanges l)
  | RLinks uri => do l <- find_document_links U L resolve uri d (sv_cs s); Ok (YLinks l)
  | RSymbols => Ok (YSymbols (find_document_symbols d roots))
  | RSymbols2 => Ok (YSymbols2 (find_document_symbols2 d roots))
  | RFolding limit => do l <- get_folding_ranges U d limit (get_void_elements (dm_providers m) lang) (sv_cs s); Ok (YFolding l)
  | RSelection ps => do l <- get_selection_ranges U d ps roots (sv_cs s); Ok (YSelection l)
  | RRename p name => do x <- do_rename d p name roots; Ok (YRename x)
  | RMatching p => do x <- find_matching_tag_position d p roots; Ok (YPosition x)
  | RLinked p => do x <- find_linked_editing_ranges d p roots; Ok (YLinked x)
  end.
End Methods.

(** A session: what a language server does with the library over time. The document is opened or
    changed, it is parsed again, participants and data providers are replaced, requests are made.
    Nothing forces the parse between a change and a request. *)
Inductive event :=
| Edit (d : textdoc) (lang : str)
| Reparse
| SetCompletionParticipants (ps : list completion_participant)
| SetHoverParticipants (ps : list hover_participant)
| SetProviders (use_default : bool) (customs : list provider)
| Ask (q : request).
Record session := mkSession {
  ss_service : service; ss_manager : manager; ss_doc : textdoc; ss_lang : str; ss_roots : list node
}.
(** Each event calls the method it is named after: HTMLLanguageService::parse_html_document (141-147),
    set_completion_participants (172-178), set_hover_participants (222-224),
    HTMLDataManager::set_data_providers (data_manager.rs:37-51). The requests take the service by
    shared reference (or not at all) and so leave it as it is. *)
Definition step (e : event) (x : session) : res (session * list reply) :=
  match e with
  | Edit d lang => Ok (mkSession (ss_service x) (ss_manager x) d lang (ss_roots x), [])
  | Reparse =>
      do roots <- parse_html_document (ss_service x) (ss_doc x) (ss_lang x) (ss_manager x);
      Ok (mkSession (ss_service x) (ss_manager x) (ss_doc x) (ss_lang x) roots, [])
  | SetCompletionParticipants ps =>
      Ok (mkSession (set_completion_participants ps (ss_service x)) (ss_manager x) (ss_doc x) (ss_lang x) (ss_roots x), [])
  | SetHoverParticipants ps =>
      Ok (mkSession (set_hover_participants ps (ss_service x)) (ss_manager x) (ss_doc x) (ss_lang x) (ss_roots x), [])
  | SetProviders b ps =>
      Ok (mkSession (ss_service x) (manager_set b ps (ss_manager x)) (ss_doc x) (ss_lang x) (ss_roots x), [])
  | Ask q => do y <- answer (ss_service x) (ss_doc x) (ss_lang x) (ss_manager x) (ss_roots x) q; Ok (x, [y])
  end.
Fixpoint run (h : list event) (x : session) : res (session * list reply) :=
  match h with
  | [] => Ok (x, [])
  | e :: h' => do a <- step e x; do b <- run h' (fst a); Ok (fst b, snd a ++ snd b)
  end.
(** Opening: a new service, its data manager, the first parse. *)
Definition open_session (o : options) (use_default : bool) (customs : option (list provider)) (d : textdoc) (lang : str) : res session :=
  let s := service_new o in
  let m := create_data_manager s use_default customs in
  do roots <- parse_html_document s d lang m;
  Ok (mkSession s m d lang roots).
End Service.
