# Formal model of html-languageservice — design

Subject: ren-wei/html-languageservice at the commit in /repo (Rust). Method: an executable
model of the code in Gallina (Coq 8.16.1), theorems about it, checked by Coq's kernel.
The code is never run; the tie between model and code is the line-by-line reading recorded
in the comments, plus the repo's own tests transcribed as computed `Example`s (those are tests
of the model, not proofs).

## 1. Trusted base

* Coq 8.16.1's kernel (incl. its VM for `vm_compute`) and the standard library.
* Axioms: `Print Assumptions` is run under every property theorem; all are expected to be
  "Closed under the global context" (no axioms). Exceptions are listed in section 6.
* The reading of /repo's source into Gallina (file/line citations at each definition).
* Assumed behaviour of dependencies that are not in /repo:
  * `multi-line-stream` 1.1.1: byte-based port of vscode's MultiLineStream (`Stream.v`);
    `advance_if_regexp`/`advance_until_regexp` slice `&source[pos..]`.
  * `regex`: leftmost-first semantics (`Regex.v`: patterns are read from their source text and
    matched in the order of a backtracking search). The model uses a matcher written out for each
    expression; C62 proves each equal to its pattern. `\s` = Unicode White_Space (full table in `Base.v`);
    `\w` beyond ASCII and `str::to_lowercase` on non-ASCII strings are an **oracle**
    (`unicode` record), universally quantified in every theorem.
  * `lsp-textdocument`: a document is its text, `position_at` and `offset_at` (`TextDoc.v`),
    constrained by the contract `textdoc_ok`: the text is UTF-8; `offset_at` returns a character
    boundary inside the text; on boundaries `position_at` is strictly increasing and `offset_at`
    inverts it; offsets behind the end mean the end. Off boundaries nothing is assumed. The
    concrete `utf16_doc` (line, UTF-16 column) is proved to meet the contract (`C27_contract`).
  * `lsp-types`/`fluent-uri`: `Uri::from_str` is a function from strings to URI parts
    (`uri_lib`), constrained by the contract `uri_ok` (the parts recompose to the string; a part
    does not contain the byte that would end it). The RFC 3986 grammar `rfc_uri` is proved to
    meet it (`C39_rfc_contract`). C61 also assumes that what is left of a URI without its query or
    fragment parses, and the file URIs made of its parts (`uri_closed`, met: `C61_rfc_contract`).
  * `std::path`: the Unix behaviour of `Path::components`, `join`, `pop` and collecting
    components (`Uri.v`). The Windows behaviour is not modelled.
  * `serde` and `serde_json`: reading a JSON text and the code derived for the structures of html_data.rs are
    modelled after their documentation (`Json.v`); the depth limit of 128 and leniency inside the values of
    unknown members are left out. `f32` is any type with text (`float_lib`), contract `float_ok`.
* `HashMap`: association list with unique keys in an arbitrary order; theorems quantify over
  that order where it can be observed.

### Not modelled
* Width of `usize`/`u32` (offsets are unbounded naturals); memory exhaustion; stack depth.
* `eprintln!`, cargo features (all are taken as enabled), `serde` (de)serialisation of other types than
  the custom data of html_data.rs.
* The descriptions and references in the data table `web_custom_data.rs` (theorems quantify over
  all data providers; the names, void flags and value sets of the table are in `BuiltinData`, which C72_builtin
  proves to be what is read from the text of the table, leaving out descriptions and references).
* `unsafe` aliasing rules of Rust (stacked borrows). The validity of the raw pointers as
  addresses is modelled (C22).

## 2. Representation choices

* Text = `list N` (bytes). Valid UTF-8 is the predicate `Utf8`.
* Panics are values: `res A := Ok a | Panic reason | OutOfFuel`. Every slice, unwrap, index and
  unsigned subtraction (and the division in the formatter) of the code that can fail is an explicit `Panic`. Loops that are not
  structural take fuel; that the fuel given by the model's entry points suffices is proved, so
  `OutOfFuel` never appears in results.
* The scanner is a record of the Rust struct's mutable fields, `scan` is a step function.
  `internal_scan`'s recursion has depth one (it only re-enters `WithinContent`, `WithinTag`,
  `WithinEndTag`, which do not recurse), so it needs no fuel.
* The parser's tree under construction is a zipper: current node and the list of its ancestors,
  each without the child being built. C22 relates this to the pointer structure.
* Services are functions from (text, tree, cursor offset/position, options) to their results.

## 3. Files (rocq/theories)

Model: `Base` (results, bytes, UTF-8, character classes), `Stream` (multi-line-stream), `Scanner`
(html_scanner.rs), `Tree` (node queries), `Parser` (html_parser.rs), `TextDoc`, `TagServices`
(rename, linked editing, matching tag, highlights, symbols), `Folding`, `SelectionRange`,
`DataManager` (html_data*.rs, html_data_manager.rs, markup), `Uri`, `Links`,
`Entities` (generated table) and `Hover` (html_hover.rs, utils/markdown.rs, utils/strings.rs),
`BuiltinData` (generated from web_custom_data.rs), `Completion` (html_completion.rs), `Formatter`
(html_formatter.rs, beautify_html.rs; it parses with the default data manager, hence the HTML5 void
elements), `Json` (serde on html_data.rs), `BuiltinText` (generated: the text of web_custom_data.rs), `ParserPtr` (html_parse.rs again, with its raw pointers into the buffers of Vecs), `Service`
(html_language_service.rs, and sessions of calls), `Regex` (the part of the regex crate's syntax and
meaning that is used). These files hold
definitions only, each with the /repo lines it models.

Tests: `RepoTests*` transcribe the tests of /repo as computed examples (tests of the model, not
proofs).

Lemmas: `BaseFacts ScannerFacts ScanStep ScanProps ScanPanic ScanShape ScanResume ScanEnter
ScanComplete ScanLocal SelAttr TokenLoop NodeScan ParseInv ParseOrder ParseEnd TreeFacts FoldLimit FormatFacts FormatWords RenderFacts
Layout LayoutTree LayoutSettle ScanShift ParseShift ParseKeep MoveFacts MoveComplete ScanCut BelowFacts
BelowLoops BelowComplete`.

Specification only: `Render` (documents as written, the tree each denotes, which are well-formed).

Properties: `PropScan` (C01-C10), `ParseSpec`/`PropParse`/`PropEnd` (C11-C20), `PropTree`
(C23-C26), `PropDoc` (C27), `PropTags` (C28, C30-C33), `PropFolding` (C34, C35, C47, C48),
`PropSelection` (C36), `PropLinks` (C37, C38), `PropUri` (C39), `PropHover`
(C45), `PropHoverDoc` (C44, C45), `PropData` (C43), `PropTagComplete` (C40, C41), `PropComplete` (C42), `PropEdits` (C49–C53), `PropFormat`
(C46, C54–C57), `PropPtr` (C22), `PropAnswers` (C58), `PropStale` (C59), `PropService` (C60), `PropLinkAnswers` (C61), `PropRegex` (C62),
`PropLayout` (C63), `PropSettle` (C64), `PropLocal` (C65), `PropTyped` (C66), `PropAbove` (C67), `PropLines` and `PropGaps` (C68), `PropProposals` (C69), `PropBelow` (C70), `PropAccept` (C71), `PropJson` (C72), `PropTokens` (C73; the pieces are in `Lexing`, runs of the scanner in `TokenRun`), `PropFoldDoc` (C74), `PropLinkDoc` (C75), `PropSelectDoc` (C76), `PropRange` (C77), `PropTagDoc` (C78), `PropHoverTree` (C79), `PropCompleteTree` (C80), `PropTypeTree` (C81), `PropSoup` (C82), `PropSoupTyping` (C83), `PropSoupServices` (C84), `PropSoupTags` (C85), `PropSoupRename` (C86), `PropSoupComplete` (C87), `PropSoupInside` (C88), `PropSoupHover` (C89), `PropSoupQuote` (C90), `PropSoupName` (C91), `PropSoupSlash` (C92), `PropSoupBracket` (C93), `PropSoupAnswers` (answers for C92 and C93), `PropSoupValue` (C94), `PropSoupAttr` (C95), `PropSoupAttrName` (C96). The small specifications a
statement uses stand in front of it; `Print Assumptions` and examples meeting the hypotheses
follow it.

## 4. Per property

| id | modelled | proof |
|----|----------|-------|
| C01 | Scanner, scan loop | measure 2*(remaining)+state bit decreases at each non-EOS scan |
| C02 | token list | induction over the run; `scan` sets offset to old position |
| C03 | scan | case analysis of states |
| C04 | scan | per-state progress lemma |
| C05 | scan on Utf8 text | boundary invariant per state, UTF-8 lemmas; witnesses for the two causes |
| C06 | scan | per-state token shape lemma |
| C07 | script loop | declarative spec of the escape automaton on occurrences; induction on fuel |
| C08, C09 | style, comment, doctype | first-occurrence lemmas of search |
| C10 | scan | simulation: fields other than position are dead in WithinContent |
| C11 | parser | joint scanner/parser invariant |
| C12 | parser | zipper invariant over spans |
| C13 | parser | ghost: preorder of starts of the zipper = offsets of tokens seen |
| C14, C15 | parser | invariants relating node fields to the text |
| C16 | EndTagClose step | against an independent stack specification |
| C17 | parser | invariant on flags |
| C18 | parser | invariant relating map to the attribute tokens of the tag |
| C19 | Tree | sorting; permutation invariance since offsets are distinct |
| C20 | parser | invariant |
| C21 | render + parse | induction over trees (PropRender), runs of the parser loop over rendered fragments (RenderFacts) |
| C22 | pointer-level parser (ParserPtr) | simulation: memory holds the zipper of Parser, buffers owned once |
| C23–C26 | queries | induction over well-formed trees against containment specs |
| C27 | TextDoc | induction over text |
| C29 | contexts + C21 | the node in the hole is the innermost at the cursor; the edited text is the rendering of the renamed document |
| C28, C30–C33 | services | unfolding + C12/C14/C15/C23 |
| C34, C35 | folding | invariant of the range list; witnesses for the findings |
| C36 | selection | inclusion chain from C12 |
| C37, C38 | links | scan run invariant |
| C39 | resolve_reference | path component induction; witness |
| C40–C42 | completion | C23, C12; list invariants |
| C49–C53 | completion: edits, tags, values, end tags, termination | the token covering the cursor (PropComplete), C16, C24 |
| C43–C45 | data manager, hover | sortedness, list lemmas |
| C46 | formatter | offset lemmas against declarative extension of the selection |
| C54–C56 | formatter | `ink` (characters that are not white space) of each function's result; induction over the tree |
| C57 | formatter | occurrence of every element's text in its parent's; attribute lengths are independent of map order |
| C58 | completion, hover, tag and quote completion, selection, folding | every slice is at token or character boundaries (Bd); exact condition for completion; clean texts for the services that scan again |
| C59 | all services that take a tree, with a tree not of the text | searching any forest is total; scanning from any offset is safe on clean text (Good); tokens give the boundaries |
| C60 | html_language_service.rs (`Service`): constructor, setters, every method; sessions as lists of events | induction over the history with C59, C58 and C11 for the requests; the state after a history computed from its last events |
| C61 | html_links.rs and the default context (`Links`, `Uri`) | every URI the service parses again is a cut or a reassembly of one that parsed: induction over the tokens with the invariant that the base can be resolved against |
| C62 | every regular expression of the crate, as text (`Regex`: a parser for the part of the syntax used, matching in the order of a backtracking search) | each hand-written matcher of the model against its pattern: lemmas on sequences, repetitions and leftmost search, and from characters to bytes |
| C63 | formatter, parser, well-formed documents of `Render` | the formatter's output as a function of a view of the document (names, attributes, texts between children); words of a text survive squeezing and cutting into lines, so pieces of text can be cut again at the same marks; the output is rendered from a well-formed document, read back with C21 |
| C64 | formatter, well-formed documents | iteration on views: a line is determined by its words, lines written once are written again; after one pass elements with children go over lines, after two all text between children does, then nothing changes |
| C65 | scanner, parser, well-formed documents | every scanner operation commutes with moving the text (`ScanShift`), and so does every parser step (`ParseShift`); what scanner and parser remember of finished tags is related by a simulation that forgets it; the well-formed prefix is run as in C21 |
| C66 | tag completion on the parsed tree of an unfinished document | a node that is open when the scanner stands between tags keeps its name, start and start tag whatever is read afterwards, and ended nodes stay as they are (`ParseKeep`); with the run over the well-formed beginning (as in C21) this gives the node C40 asks for |
| C67 | all services about a place, on a document and on the same document with markup above | by C65 the tree below is the same tree moved; scanning, slicing and every loop of the services commute with moving (`MoveFacts`, `MoveComplete`), so each answer is the moved answer (`PropAbove`); positions are any pair of documents that meet `below_lines`, met by the UTF-16 instance for whole lines (`C67_lines`) |
| C68 | formatter, any parsed document | induction over the written elements: each is a list of lines whose first and last are not blank; lists of lines are glued at such lines, so runs of blank lines only come from one text (`PropLines`); the text around the children of an element is compared line by line with a relation saying which lines are written (`PropGaps`) |
| C69 | `do_complete`, every cursor position outside of tag names and values | the token around the cursor decides the branch (lemmas of C42, C52); the loop over the ancestors finds the innermost element that is still open because ancestors are sorted by start (`PropProposals`) |
| C70 | all services about a place, on a well-formed document and on the same document with text below | the scanner steps of the well-formed part are the same with and without the rest (`ScanCut`, `BelowFacts`); every loop of the services started at an element stays in that part while it looks in front of its end (`BelowLoops`, `BelowComplete`); the tree is the old one followed by the moved tree of the rest (C65) |
| C71 | `do_complete`, then the edit of the proposal applied to the text, then the parser | `expands` says what a client inserts for a snippet, `accepted` what the text is afterwards; the tokens of the place are found by running the scanner through the rendered document, C69 and C51 give the edit, the replaced text is the rendering of the changed document, whose tree is known by C21 |
| C72 | JSON texts, the readers and writers serde derives for html_data.rs, the text of web_custom_data.rs | the grammar is an inductive relation (`json_text`), the shapes are relations on values (`is_file`, `is_tag`, ...); completeness by mutual induction on the grammar, soundness by induction on the steps of the reader; round trip from both; the built-in text is computed |
| C73 | the scanner on well-formed documents | the pieces of a document are a function on `html` (`lex`); runs of the scanner compose (`trun`), induction on the document |
| C74 | `get_folding_ranges` on well-formed documents | the ranges are a function on `html` with offsets (`spans`); the loop over the tokens of C73 leaves its stack as it was behind each piece, induction on the document |
| C75 | `find_document_links` on well-formed documents | the attribute values are a function on `html` with offsets (`occs`); the loop over the tokens of C73 adds a link or none for each, induction on the document |
| C76 | `get_selection_ranges` on well-formed documents | the ranges are a function on `html` with offsets (`sel`); the elements over the cursor are those of C23, the text of an element is scanned as in C73 |
| C77 | `format` with a range, `compute_indent_level` (`Formatter`, `utf16_doc`) | the start of a line is behind a line feed or carriage return (induction over the characters), so the level is 0 and the rest of `format` is the same for the range and for its text alone |
| C78 | highlight, linked editing, matching position, rename and symbols on well-formed documents | the tree of C21; every node is an element in a context (`fill`) and conversely, the names are read again by the scanner where the element is written (`at_elem`); symbols by induction on the document against the relation `outlines` |
| C79 | hover on well-formed documents | C45 says what the answer is in terms of the tokens of the start tag that encloses the cursor; C73 gives these tokens (`start_tokens`: exactly the pieces of the start tag), C78's contexts give the innermost element; the spans of names and values are disjoint (`two_attrs`); every offset is in the own text of one element or outside all (`C79_cases`) |
| C80 | completion in well-formed documents | C42, C50, C51, C52 and C69 say what is proposed in terms of the token at the cursor and of the innermost open element; C73 gives the token (`token_here`, `place_token`), the contexts of C78 the element around (`outer`, `near_outer`) and the element whose start tag it is (`tag_node`); `C80_cases`: by induction on the document every offset but 0 is in one of the places |
| C81 | the helpers for typing in well-formed documents | C40 and C41 say when the helpers answer in terms of tokens and of the innermost open element; every token of a well-formed document is a piece of one element (`piece_owner`), which gives the end tag or the attribute (`end_open_owner`, `attr_owner`); `open_outer`: the innermost element open in front of an end tag, other than its own, is the one around it; for `C81_restores` the scanner is run up to the name in the text without the quotes, as in C66 and C71 |
| C82 | the tree of tags in any order | the relation `denotes` reads a sequence of parts like a grammar with open elements as context; by induction on a derivation the parser runs over the parts (`soup_run`), with the invariant that closing the elements left open at the end offset gives the nodes (`collapse`); `end_step` is an end tag whatever it closes; that every sequence has a derivation is by induction on its length (`reads`), where an end tag that belongs to an element around stops the reading |
| C83 | closing what is open in an unfinished document | the tree with a `</` added is the tree of C82 with the elements left open stretched to the new end (`collapse_stretch`, `slash_parse`); by induction on the derivation those are the elements open there, the innermost last (`stretched`), which decides the answer of C40; `close_last`: with the proposed end tag added, one element less is left open, which gives `C83_closing` by induction on the number of elements left open |
| C84 | folding ranges and links of tags in any order | by induction on the derivation of C82: the stack of the folding service holds the names of the elements open around, innermost first, so an end tag finds the entry of the element it closes in the tree, or none (`soup_folds`, `entry_some`, `folds_stray`); the ranges added are the candidates that end in this part, sorted by their ends; links by the events of C75 over the tokens of C83 (`soup_links`) |
| C85 | names of tags in any order | by induction on the derivation of C82 each node has its names in the parts it comes from, the text there is as the services presume and no child covers them (`soup_names`); so the node is the innermost one on its names (`innermost_bare`), and the services are computed at it (`node_services`) |
| C86 | renaming among tags in any order | the text by C85 and the two edits; the tree by induction on the derivation of C82 for the sequence with the names replaced (`soup_renamed`): the end tag is replaced just where the start tag is (`consistent`, from the uniqueness of nodes, `node_unique`), an unused name matches nothing else, and offsets move by the difference of the names before them (`moved`) |
| C87 | what is proposed at the end of an unfinished document | the tree with the '<' or '</' at the end (`hang`, as `stretch` of C83), by induction on the derivation of C82: every other node lies in front of the end or is left open (`hung`); what is found before the cursor is the new node, or the innermost element left open; the proposals from C69 |
| C88 | closing what is open, whatever follows | the run of the parser over the sequence (C82) up to the cursor; the last start tag left open splits the sequence (`open_split`); the element open there is in the final tree and still open (ParseKeep), every other node that starts before the cursor starts before it or is over (`front_run`); the answer from C40 |
| C89 | hovering over tags in any order | the run of the parser up to the end of the start tag (C82) shows its element in the final tree whatever follows; the run of the scanner over the same text (C73, C83) shows the tokens of the start tag (`trun_front`); nothing in the tree is inside of a tag (`innermost_in`); the answer from C45 |
| C90 | quotes in an unfinished start tag | a run of the scanner over the parts and the unfinished tag up to the '=' (`half_run`) puts its tokens in front of all others, none of them empty (`trun_front`), so the equivalence of C41 applies; what it asks for is the byte behind the '=' |
| C91 | the name of a tag being typed | a run of the scanner over the parts, the '<' and the name (`name_run`) gives the token of the name whatever follows (`elem_over`, `trun_front`); the proposals from C50; the text after accepting by cutting at character boundaries |
| C92 | the end tag proposed, whatever follows | the run of the parser in front of the '</' shows which element of the final tree is open there (`slash_front`, from C88); the element completion finds at the cursor is the same (`open_nearest`, by the search of C40 over the same ancestors); the proposal from C69; that there is an answer from C58 |
| C93 | proposals behind a '<', whatever follows | as C92; an element left open in front of the '<' does not end there, since elements end only where an end tag is written (C15, C16), so it is around the element that the '<' begins (`laminar`); the proposals from C69; that there is an answer from C58 |
| C94 | values in an unfinished start tag | the tokens up to the '=' are those written (`half_tokens`, from `half_run` of C90); the element found at the cursor has the tag of the last name token before it (`half_node`); an answer from C58 (the '=' is no place of trouble), its contents from C51; the text after accepting by cutting at character boundaries |
| C95 | attribute names in an unfinished start tag | the tokens up to the white space are those written, and the next one is no longer in the tag (`front_tokens`, `next_over`); no '<' opens a tag inside a start tag (`no_open`), so the element found at the cursor has exactly the attributes written (`front_node`); an answer from C58, its contents from C42 |
| C96 | the name of an attribute being typed | as C95, with one more token for the name, which ends where the tag is over (`name_before`, `typed_tokens`, `typed_node`) |

Nothing in the list is inexpressible; what is not covered yet is listed in MANIFEST.json.

## 5. Findings

Places where the code does not do what its users would expect, each with a theorem that computes
a witness (`_refuted`); the positive theorem's hypotheses exclude exactly these.

| theorem | what happens |
|---------|--------------|
| C05_causes_panic (C05_cause_a, C05_cause_b) | the scanner panics: multi-byte white space inside a tag; a multi-byte character after an unfinished quoted `type` value |
| C10_resume_in_tag_refuted | resuming inside a start tag loses the last tag name |
| C20_upper_case_refuted | `<BR>` is not void in case-insensitive mode when data names are lower case |
| C26_void_close_refuted | the `>` of a void element is reported as `/>` |
| C28_space_refuted, C28_length_refuted | rename edits the wrong bytes: `</ div>`; case variants of different length |
| C31_cut_refuted | matching position lost behind an end tag without `>` |
| C35_*_refuted | folding range limit: panic, exceeded, or everything dropped when ranges share lines |
| C36_*_refuted | selection: ranges that miss the cursor, do not nest, or panic |
| C37_*_refuted | links: panic on a lone quote, an empty base, `file:a:b#x`; `<base target>` swallows a link |
| C39_climb_refuted | `../.evil.org/x` against `https://example.com/index.html` gives host example.com.evil.org |
| C39_dot_refuted, C39_query_refuted, C39_empty_path_refuted | other wrong resolutions |
| C39_base_query_refuted | against `http://example.com/d/?q`, `b.js` is `http://example.com/b.js`; against `http://example.com/d/a.html?q=/`, it is below `a.html` |
| C47_region_refuted, C48_case_refuted | region ranges cross; `<A></a>` does not fold |
| C43_upper_case_refuted, C43_value_set_v_refuted | custom tags with capitals are never found in case-insensitive mode; the value set `v` is missing |
| C44_*_refuted | hover ignores the hover capability; the kind of a description is ignored; participants bypass it |
| C45_unfinished_refuted, C45_attribute_case_refuted | the hover on an unfinished tag shows the enclosing element; attribute names match by case |
| C40_*_refuted | tag completion: `<a x="1" </b>|` gives `$0</a>`; `<p>|x</p>` gives a second `</p>`; `<p><></` gives nothing |
| C41_unfinished_refuted | quote completion inside a comment after an unfinished tag |
| C42_data_refuted | attribute completion proposes `data-` although the element has an attribute of that name |
| C51_quote_refuted | value completion right behind the closing quote replaces the value and that quote |
| C51_space_refuted | after `x= ` attribute names, not values, are proposed |
| C51_panic_refuted | value completion panics on values with characters other than ASCII |
| C52_indent_refuted | the end tag edit deletes text other than ASCII that precedes `</` on its line |
| C52_rest_refuted | the end tag edit keeps the part of the name behind the cursor when it changes the indentation |
| C53_panic_refuted | completion underflows for a column smaller than the word before the offset (a line past the end of the document) |
| spaced_value_refuted | `class = "foo"` is read as two attributes `class` without a value and `foo`-in-quotes; formatting writes `class= foo` |
| C46_replaces_line_refuted | formatting a selection at the start of a line replaces from the line below on |
| C46_twice_refuted | formatting is not idempotent |
| C46_outside_dropped_refuted, C46_unclosed_dropped_refuted | formatting deletes text, comments and the doctype outside elements, and the content of unclosed elements |
| C46_pre_refuted | formatting collapses white space in `<pre>` |
| C55_*_refuted | formatting panics: element without a name; selection on the first line (debug builds: subtraction underflow; release: unwrap); tab size 0 |
| module_script_refuted | the content of `<script type="...">` is parsed as markup, also for `type="module"` and `text/javascript` |
| upper_end_refuted | `</STYLE>` and `</SCRIPT>` do not end the content of a raw text element, also in case-insensitive mode |
| upper_void_refuted | `<BR>` is not taken as void, also in case-insensitive mode |
| C29_any_name_refuted | rename accepts any new name: a void or raw element's name, the empty name or one with a space changes the structure |
| C58_selection_refuted | selection ranges panic in an element closed by an end tag without `>` with a non-ASCII name, when the text in it looks like an open `type` value |
| C58_tag_complete_refuted | tag completion panics on a no-break space in an end tag behind an unfinished start tag, though the document is parsed |
| C59_completion_refuted | with an outdated tree in which an element begins inside a character, completion of an end tag panics (get_line_indent slices there) |
| C59_selection_refuted | with an outdated tree in which an element ends behind a non-ASCII character of a `type` value, selection ranges panic |
| C63_unclosed_refuted | formatting an unclosed element changes the tree |
| C64_twice_refuted | `<div><b></b>text</div>` changes three times when formatted again and again |
| C64_grows_refuted | `<a b="x` grows by ` />` each time it is formatted |
| C65_unfinished_refuted | an unfinished comment swallows the markup behind it |
| C66_same_name_refuted | in `<div><div></div>`, with the cursor before the end tag, nothing is proposed for the inner element: the end tag of the outer one counts as its own |
| C66_complete_refuted | in `<ul><li></li></ul>`, with the cursor after the first `</`, the proposal is `ul>` |
| C67_first_line_refuted, C67_leading_text_refuted | a doctype is offered only in the first line, even behind other elements; in front of the first element nothing is completed, not even character entities |
| C68_exact_fit_refuted | an element exactly as long as the line length is broken (its end tag is counted one byte longer) |
| C68_short_children_refuted | `<ul><li>a</li></ul>`: the child starts a new line, the end tag follows it directly |
| C68_tab_wrap_refuted, C68_value_lines_refuted | attributes wrapped with tabs get a blank line and no indent; blank lines in attribute values stay |
| C74_crossing_refuted, C74_marker_refuted | a region that ends inside an element takes the element's folding range away; a comment that mentions `endregion` anywhere, without `#`, ends a region |
| C77_indent_refuted | a formatted selection never keeps the indentation of its lines: `compute_indent_level` starts one byte early, at the line break, and always gives 0 |
| C71_data_value_refuted | with `<p data-a>` in the document, accepting `data-a` for the name in `data="3"` gives `data-a=""="3"`: the value 3 is lost |
| C74_case_refuted | an element whose end tag differs in case from its start tag (`<P>..</p>`) is never folded, also when case does not matter |
| C72_not_finite_refuted | custom data with a version that is not finite is written as `null` and cannot be read again |
| C72_attributes | a tag without `attributes` (which vscode's format allows) makes the whole file unreadable |
| C80_end_tag, C80_results | in the end tag of an element, up to the end of its name, the end tag proposed is that of the element around it (with nothing around it: all end tags): in `<ul><p>a</p></ul>` behind `</` the only proposal is `/ul`, and accepting it leaves the document with unmatched tags |
| C81_restores_refuted | in `<br a=/>` and `<p a =></p>` no quotes are proposed behind the `=`, though none are there: a `/` next counts as the start of a value, and the `=` must directly follow the name |

## 6. Axioms used

`Print Assumptions` reports "Closed under the global context" for every property theorem. The
gate's scan of the loaded libraries lists the seven `Coq.ssr.ssrunder.Under_rel.*` parameters of
the standard library (loaded with `Zify`); no theorem depends on them.
