(** * C01-C10: the scanner *)
From Verif Require Import Base Stream Scanner BaseFacts ScannerFacts ScanStep ScanProps ScanPanic
  ScanShape ScanResume ScanEnter.
From Coq Require Import ZifyBool ZifyNat ZifyN.

(** Documents used in the examples. *)
Definition demo_doc : str := bs "<div class='a' id=b><br/>x<!-- c --><p>y</div><".
Definition demo_tokens (t : str) : res (list token_type) :=
  match tokens demo_unicode t true false (2 * length t + 1) (scanner_new 0 WithinContent) with
  | Ok (l, _) => Ok (map tk_type l)
  | Panic r => Panic r
  | OutOfFuel => OutOfFuel
  end.
Lemma demo_utf8 : Utf8 demo_doc.
Proof. apply ascii_utf8. reflexivity. Qed.
Example demo_scan : demo_tokens demo_doc = Ok
  [StartTagOpen; StartTag; Whitespace; AttributeName; DelimiterAssign; AttributeValue; Whitespace;
   AttributeName; DelimiterAssign; AttributeValue; StartTagClose; StartTagOpen; StartTag;
   StartTagSelfClose; Content; StartCommentTag; Comment; EndCommentTag; StartTagOpen; StartTag;
   StartTagClose; Content; EndTagOpen; EndTag; EndTagClose; StartTagOpen].
Proof. vm_compute. reflexivity. Qed.

(** ** C01: scanning reaches the end of the text.
    [tokens n sc] is the client loop [while scan() != EOS] limited to [n] calls;
    it is [OutOfFuel] when [n] calls did not reach EOS (and none panicked). *)
Theorem C01_scan_reaches_eos : forall U t emit cs sc,
  Utf8 t ->
  tokens U t emit cs (2 * (length t - pos sc) + 1) sc <> OutOfFuel /\
  (forall n l f, tokens U t emit cs n sc = Ok (l, f) -> length l <= 2 * (length t - pos sc)).
Proof.
  intros U t emit cs sc HU. split.
  - apply tokens_no_fuel; auto; [lia|]. unfold measure.
    destruct (length t <=? pos sc), (content_state (st sc)); lia.
  - intros n l f. apply tokens_count; auto.
Qed.
Print Assumptions C01_scan_reaches_eos.
(** The bound is reached: two tokens (pseudo close and '<') for one byte. *)
Example C01_tight : exists f,
  tokens demo_unicode (bs "<") true false 3 (scanner_new 0 WithinTag) =
  Ok ([mkToken StartTagClose 0 0 (Some ErrClosingBracketMissing) WithinContent;
       mkToken StartTagOpen 0 1 None AfterOpeningStartTag], f).
Proof. eexists. vm_compute. reflexivity. Qed.

(** ** C02: tokens tile the text. [tiles a l b] (ScanProps.v): the first token of
    [l] starts at [a], each next one where the previous ended, the last ends at [b]. *)
Theorem C02_tokens_tile : forall U t emit cs n sc l f,
  Utf8 t -> pos sc <= length t ->
  tokens U t emit cs n sc = Ok (l, f) ->
  tiles (pos sc) l (length t) /\
  List.concat (map (fun k => sub t (tk_off k) (tk_end k)) l) = skipn (pos sc) t.
Proof.
  intros U t emit cs n sc l f HU L H. apply tokens_tile in H as [H _]; auto. split; auto.
  rewrite (tiles_concat t l _ _ H). unfold sub. apply firstn_all2. rewrite skipn_length. lia.
Qed.
Print Assumptions C02_tokens_tile.

(** ** C03: EOS exactly at the end, and for ever. *)
Theorem C03_eos_exact : forall U t emit cs sc sc',
  Utf8 t -> scan U t emit cs sc = Ok sc' ->
  (tok sc' = EOS <-> length t <= pos sc) /\
  (tok sc' = EOS -> tok_off sc' = pos sc /\ pos sc' = pos sc /\ scan U t emit cs sc' = Ok sc').
Proof.
  intros U t emit cs sc sc' HU H. pose proof (scan_eos_iff U t emit cs HU _ _ H) as E.
  split; auto. intros T. assert (L : length t <= pos sc) by (apply E; auto).
  rewrite scan_at_end in H by auto. apply Ok_inj in H. subst sc'. cbn. repeat split; auto.
  rewrite scan_at_end by auto. reflexivity.
Qed.
Print Assumptions C03_eos_exact.
(** At the end of the text a scan never panics, so EOS is in fact returned. *)
Theorem C03_eos_at_end : forall U t emit cs sc,
  Utf8 t -> length t <= pos sc -> exists sc', scan U t emit cs sc = Ok sc' /\ tok sc' = EOS.
Proof. intros U t emit cs sc HU L. rewrite scan_at_end by auto. eexists. split; reflexivity. Qed.
Print Assumptions C03_eos_at_end.

(** ** C04: empty tokens are pseudo-close tags and the recovery of [scan] never runs. *)
Theorem C04_empty_tokens : forall U t emit cs sc sc',
  Utf8 t -> scan U t emit cs sc = Ok sc' -> tok sc' <> EOS -> pos sc' <= tok_off sc' ->
  emit = true /\ (tok sc' = StartTagClose \/ tok sc' = EndTagClose) /\
  pos sc' = tok_off sc' /\ nth_error t (pos sc') = Some LT /\ st sc' = WithinContent.
Proof.
  intros U t emit cs sc sc' HU H T L. apply scan_progress in H as (O & H); auto. rewrite O in L.
  destruct H as [H|[H|(H1 & H2 & H3 & H4 & H5 & _)]]; [tauto|lia|]. rewrite H3, O. auto.
Qed.
Print Assumptions C04_empty_tokens.
Theorem C04_recovery_dead : forall U t emit cs sc,
  Utf8 t -> scan U t emit cs sc = internal_scan U t emit cs sc.
Proof. intros U t emit cs sc HU. exact (scan_internal U t emit cs HU sc). Qed.
Print Assumptions C04_recovery_dead.

(** ** C05: the panics of the scanner *)
(** Every panic of a scan started on a character boundary, in any state, has one
    of the two causes (definitions in ScanPanic.v)... *)
Theorem C05_panic_causes : forall U t emit cs off s sc r,
  Utf8 t -> is_boundary t off = true -> off <= length t ->
  reach U t emit cs (scanner_new off s) sc ->
  scan U t emit cs sc = Panic r ->
  r = PSlice /\ (after_bad_char t sc \/ type_value_at_end t sc).
Proof.
  intros U t emit cs off s sc r HU HB L R S. eapply panic_causes; eauto.
  apply boundary_Bd; auto.
Qed.
Print Assumptions C05_panic_causes.
(** ...and both causes do panic, whatever the history. *)
Theorem C05_causes_panic : forall U t emit cs sc,
  Utf8 t -> after_bad_char t sc \/ type_value_at_end t sc ->
  scan U t emit cs sc = Panic PSlice.
Proof.
  intros U t emit cs sc HU [H|H]; [apply after_bad_panics|apply type_value_panics]; auto.
Qed.
Print Assumptions C05_causes_panic.
(** So a text without non-ASCII white space or C1 characters, whose last
    character is ASCII, is scanned to the end. *)
Theorem C05_no_panic : forall U t emit cs s,
  Utf8 t ->
  (forall c, In c (decode t) -> bad_char c = false) ->
  (forall t' c, t = t' ++ encode1 c -> scalar c = true -> (c < 128)%N) ->
  exists l f, tokens U t emit cs (2 * length t + 2) (scanner_new 0 s) = Ok (l, f).
Proof.
  intros U t emit cs s HU H1 H2. apply tokens_safe; auto.
  - intros _. left. apply Bd_0; auto.
  - unfold measure. cbn. destruct (length t <=? 0), (content_state s); lia.
Qed.
Print Assumptions C05_no_panic.
(** Both causes are reached from the start of a document:
    [<a U+3000>] and [<a type=] followed by a double quote and e-acute. *)
Example C05_cause_a : demo_tokens (bs "<a " ++ encode1 12288 ++ bs ">") = Panic PSlice.
Proof. vm_compute. reflexivity. Qed.
Example C05_cause_b : demo_tokens (bs "<a type=""" ++ encode1 233) = Panic PSlice.
Proof. vm_compute. reflexivity. Qed.
(** Non-ASCII text elsewhere is fine. *)
Example C05_fine : demo_tokens (bs "<a t=" ++ encode1 233 ++ bs " " ++ encode1 955 ++ bs ">"
                                ++ encode1 12288 ++ bs "</a>") =
  Ok [StartTagOpen; StartTag; Whitespace; AttributeName; DelimiterAssign; AttributeValue; Whitespace;
      AttributeName; StartTagClose; Content; EndTagOpen; EndTag; EndTagClose].
Proof. vm_compute. reflexivity. Qed.

(** ** C06: every token has its lexical shape ([token_shape], ScanShape.v). *)
Theorem C06_token_shapes : forall U t emit cs n sc l f,
  Utf8 t -> tokens U t emit cs n sc = Ok (l, f) -> Forall (token_shape U t emit) l.
Proof.
  intros U t emit cs n sc l f HU. apply tokens_forall. intros a b. apply scan_shape. auto.
Qed.
Print Assumptions C06_token_shapes.
(** The character classes the shapes speak of, spelled out. Code points: 45 [-],
    46 [.], 47 [/], 58 [:], 60 [<], 61 [=], 62 [>], 95 [_], 96 backquote, 34 and 39
    the quotes; the table is Unicode's White_Space. *)
Definition white_space : list N :=
  [9; 10; 11; 12; 13; 32; 133; 160; 5760; 8192; 8193; 8194; 8195; 8196; 8197; 8198; 8199; 8200;
   8201; 8202; 8232; 8233; 8239; 8287; 12288]%N.
Definition word_like (U : unicode) (c : N) : Prop :=
  (48 <= c <= 57 \/ 65 <= c <= 90 \/ 97 <= c <= 122 \/ (128 <= c /\ uni_word U c = true))%N.
Theorem C06_character_classes : forall U c,
  (name_start_char U c = true <-> In c [95; 58]%N \/ word_like U c) /\
  (name_char U c = true <-> In c [95; 58; 45; 46]%N \/ word_like U c) /\
  (attr_char c = true <->
     ~ In c white_space /\ ~ In c [34; 39; 60; 62; 47; 61]%N /\ (16 <= c)%N /\ ~ (127 <= c <= 159)%N) /\
  (val_char c = true <-> ~ In c white_space /\ ~ In c [34; 39; 96; 61; 60; 62]%N) /\
  (is_ws c = true <-> In c [32; 9; 10; 12; 13]%N).
Proof.
  intros U c.
  unfold name_char, name_start_char, is_word, attr_char, val_char, is_ws, is_uspace, is_c1, word_like,
    white_space, ascii_alnum, ascii_alpha, ascii_upper_letter, ascii_lower_letter, ascii_digit.
  cbn [In]. destruct (uni_word U c), (N.ltb_spec c 128); repeat apply conj; intros; lia.
Qed.
Print Assumptions C06_character_classes.
(** So, byte by byte: a tag name has no ASCII character but letters, digits and
    [_ : - .]; an attribute name contains no white space, quote, [<], [>], [/], [=]. *)
Lemma encode_byte b : forall l, forallb scalar l = true -> In b (encode l) -> (b < 128)%N -> In b l.
Proof.
  induction l as [|c l IH]; intros S I L; [destruct I|].
  cbn [forallb] in S. apply andb_true_iff in S as [S1 S2].
  rewrite encode_cons in I. apply in_app_or in I as [I|I]; [left|right; auto].
  destruct (encode1 c) as [|b0 r] eqn:E0; [destruct I|].
  destruct (N.lt_ge_cases b0 128) as [G|G].
  - destruct (encode1_ascii _ _ _ S1 E0 G) as [-> ->]. destruct I as [I|[]]; auto.
  - apply encode1_shape in S1. rewrite E0 in S1. exfalso. clear E0 IH.
    assert (W : forall y, is_cont y = true -> (128 <= y)%N) by (unfold is_cont; intros; lia).
    assert (F : Forall (fun y => 128 <= y)%N (b0 :: r)) by (inv S1; repeat constructor; auto; lia).
    rewrite Forall_forall in F. apply F in I. lia.
Qed.
Theorem C06_names_delimited : forall U t emit cs n sc l f k b,
  Utf8 t -> tokens U t emit cs n sc = Ok (l, f) -> In k l -> In b (sub t (tk_off k) (tk_end k)) ->
  (b < 128)%N ->
  (tk_type k = StartTag \/ tk_type k = EndTag ->
     (48 <= b <= 57 \/ 65 <= b <= 90 \/ 97 <= b <= 122)%N \/ In b [95; 58; 45; 46]%N) /\
  (tk_type k = AttributeName ->
     (33 <= b)%N /\ ~ In b [34; 39; 60; 62; 47; 61; 127]%N \/ (16 <= b <= 31)%N).
Proof.
  intros U t emit cs n sc l f k b HU H I J L.
  pose proof (proj1 (Forall_forall _ _) (C06_token_shapes _ _ _ _ _ _ _ _ HU H) k I) as Q.
  unfold token_shape in Q. split; intros E.
  - assert (NT : name_text U t (tk_off k) (tk_end k)) by (destruct E as [E|E]; rewrite E in Q; exact Q).
    destruct NT as (c & m & S & E1 & C & M & _). rewrite E1 in J. apply encode_byte in J; auto.
    destruct (C06_character_classes U b) as (C1 & C2 & _).
    assert (NB : name_char U b = true).
    { destruct J as [->|J]; [unfold name_char; rewrite C; auto|]. rewrite forallb_forall in M. auto. }
    apply C2 in NB. destruct NB as [NB|NB]; [right; auto|]. unfold word_like in NB. left. lia.
  - rewrite E in Q. destruct Q as (m & _ & S & E1 & M & _). rewrite E1 in J. apply encode_byte in J; auto.
    rewrite forallb_forall in M. apply M in J. destruct (C06_character_classes U b) as (_ & _ & C3 & _).
    apply C3 in J. unfold white_space in J. cbn [In] in *. lia.
Qed.
Print Assumptions C06_names_delimited.

(** ** C07: script content *)
(** The end of script content is a function of the text and the start: the
    specification [script_run] (ScannerFacts.v) is deterministic and total. *)
Theorem C07_script_end_unique : forall t p q q',
  script_run t 1 p q -> script_run t 1 p q' -> q = q'.
Proof. intros t p q q'. apply script_run_det. Qed.
Print Assumptions C07_script_end_unique.
Theorem C07_script_content : forall U t emit cs sc sc',
  Utf8 t -> st sc = WithinScriptContent -> pos sc < length t -> scan U t emit cs sc = Ok sc' ->
  exists e, script_run t 1 (pos sc) e /\
   ((pos sc < e /\ tok sc' = Script /\ tok_off sc' = pos sc /\ pos sc' = e /\
     (st sc' = WithinContent \/ (e = length t /\ st sc' = WithinScriptContent))) \/
    (pos sc = e /\ tok sc' = EndTagOpen /\ pos sc' = e + 2)).
Proof. intros U t emit cs sc sc' HU. apply scan_in_script. auto. Qed.
Print Assumptions C07_script_content.
Theorem C07_script_end_exists : forall t p, p <= length t -> exists q, script_run t 1 p q.
Proof. intros t p. apply script_run_total with (n := length t - p). auto. Qed.
Print Assumptions C07_script_end_exists.
(** The scanner is in script content after the '>' of a start tag named script in
    which no attribute is named type, in style content after one named style, and
    in plain content after any other; [scans] lists the tokens between the name
    and the '>'. *)
Theorem C07_script_entered : forall U t emit cs sc0 sc1 l sc2 sc3,
  Utf8 t ->
  scan U t emit cs sc0 = Ok sc1 -> tok sc1 = StartTag ->
  scans U t emit cs sc1 l sc2 ->
  Forall (fun k => in_start_tag (tk_state k) = true) l ->
  scan U t emit cs sc2 = Ok sc3 -> tok sc3 = StartTagClose -> pos sc2 < pos sc3 ->
  let name := norm_text U t cs (tok_off sc1) (pos sc1) in
  (name = bs "script" -> existsb (is_type_name U t cs) l = false -> st sc3 = WithinScriptContent) /\
  (name = bs "style" -> st sc3 = WithinStyleContent) /\
  (name <> bs "script" -> name <> bs "style" -> st sc3 = WithinContent).
Proof. intros U t emit cs sc0 sc1 l sc2 sc3 HU. apply start_tag_effect. auto. Qed.
Print Assumptions C07_script_entered.
Example C07_demo : exists f,
  tokens demo_unicode (bs "<script>a<!--<script></script>b--></script>") true false 99 (scanner_new 0 WithinContent)
  = Ok ([mkToken StartTagOpen 0 1 None AfterOpeningStartTag; mkToken StartTag 1 7 None WithinTag;
         mkToken StartTagClose 7 8 None WithinScriptContent;
         mkToken Script 8 34 None WithinContent; mkToken EndTagOpen 34 36 None AfterOpeningEndTag;
         mkToken EndTag 36 42 None WithinEndTag; mkToken EndTagClose 42 43 None WithinContent], f).
Proof. eexists. vm_compute. reflexivity. Qed.

(** ** C08: style content *)
Theorem C08_style_content : forall U t emit cs sc sc',
  Utf8 t -> st sc = WithinStyleContent -> pos sc < length t -> scan U t emit cs sc = Ok sc' ->
  exists e, first_str t (pos sc) (bs "</style") e /\
   ((pos sc < e /\ tok sc' = Styles /\ tok_off sc' = pos sc /\ pos sc' = e /\ st sc' = WithinContent) \/
    (pos sc = e /\ tok sc' = EndTagOpen /\ pos sc' = e + 2)).
Proof. intros U t emit cs sc sc' HU. apply scan_in_style. auto. Qed.
Print Assumptions C08_style_content.
Example C08_demo : demo_tokens (bs "<style>a<b></style>") = Ok
  [StartTagOpen; StartTag; StartTagClose; Styles; EndTagOpen; EndTag; EndTagClose].
Proof. vm_compute. reflexivity. Qed.

(** ** C09: comments and doctypes are opaque *)
Theorem C09_comment : forall U t emit cs sc sc',
  Utf8 t -> st sc = WithinComment -> pos sc <= length t -> scan U t emit cs sc = Ok sc' ->
  (first_str t (pos sc) (bs "-->") (pos sc) /\ pos sc < length t /\
   tok sc' = EndCommentTag /\ pos sc' = pos sc + 3 /\ st sc' = WithinContent) \/
  exists e, first_str t (pos sc) (bs "-->") e /\ pos sc' = e /\ st sc' = WithinComment /\
   ((tok sc' = Comment /\ pos sc < e) \/ (tok sc' = EOS /\ pos sc = e /\ e = length t)).
Proof. intros U t emit cs sc sc' HU. apply scan_after_comment_open. auto. Qed.
Print Assumptions C09_comment.
Theorem C09_doctype : forall U t emit cs sc sc',
  Utf8 t -> st sc = WithinDoctype -> pos sc <= length t -> scan U t emit cs sc = Ok sc' ->
  (nth_error t (pos sc) = Some GT /\ tok sc' = EndDoctypeTag /\ pos sc' = pos sc + 1 /\ st sc' = WithinContent) \/
  exists e, first_byte t (pos sc) GT e /\ pos sc' = e /\ st sc' = WithinDoctype /\
   ((tok sc' = Doctype /\ pos sc < e) \/ (tok sc' = EOS /\ pos sc = e /\ e = length t)).
Proof. intros U t emit cs sc sc' HU. apply scan_after_doctype_open. auto. Qed.
Print Assumptions C09_doctype.
Example C09_demo : demo_tokens (bs "<!doctype <a> --> <!-- <b> > -->") = Ok
  [StartDoctypeTag; Doctype; EndDoctypeTag; Content; StartCommentTag; Comment; EndCommentTag].
Proof. vm_compute. reflexivity. Qed.

(** ** C10: resuming. A fresh scanner started at the end of a token, in the state
    reported after that token, gives the remaining tokens, provided the state is
    not inside a start tag. *)
Theorem C10_resume : forall U t emit cs n sc l1 k l2 f,
  Utf8 t -> tokens U t emit cs n sc = Ok (l1 ++ k :: l2, f) ->
  in_start_tag (tk_state k) = false ->
  exists f', tokens U t emit cs n (scanner_new (tk_end k) (tk_state k)) = Ok (l2, f') /\
             token_of f' = token_of f.
Proof. intros U t emit cs n sc l1 k l2 f HU. apply resume. auto. Qed.
Print Assumptions C10_resume.
(** Inside a start tag this fails: a fresh scanner does not know about white
    space already seen. *)
Theorem C10_resume_in_tag_refuted : exists t l1 k l2 f l2' f',
  tokens demo_unicode t true false 99 (scanner_new 0 WithinContent) = Ok (l1 ++ k :: l2, f) /\
  tokens demo_unicode t true false 99 (scanner_new (tk_end k) (tk_state k)) = Ok (l2', f') /\
  map tk_type l2 = [AttributeName; StartTagClose] /\
  map tk_type l2' = [Unknown; StartTagClose].
Proof.
  exists (bs "<a b>"),
   [mkToken StartTagOpen 0 1 None AfterOpeningStartTag; mkToken StartTag 1 2 None WithinTag],
   (mkToken Whitespace 2 3 None WithinTag). do 4 eexists.
  split; [vm_compute; reflexivity|]. split; [vm_compute; reflexivity|]. split; reflexivity.
Qed.
Print Assumptions C10_resume_in_tag_refuted.
