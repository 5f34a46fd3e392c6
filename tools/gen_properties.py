#!/usr/bin/env python3
"""Regenerates /verif/properties.jsonl. Run: python3 /verif/tools/gen_properties.py"""
import json, os
P = []
def p(title, statement, quantifier, why, *anchors):
    P.append(dict(id="C%02d" % (len(P) + 1), title=title, statement=statement,
                  quantifier=quantifier, why_tests_cant=why, anchors=list(anchors)))

SC = "src/parser/html_scanner.rs"
PA = "src/parser/html_parse.rs"
DO = "src/parser/html_document.rs"
SV = "src/services/"

# ---- scanner -------------------------------------------------------------
p("Scanning always reaches the end of the text",
  "Calling Scanner::scan repeatedly returns EOS after at most 2*(len-offset)+1 calls that did not panic, whatever the text, start offset, start state and modes.",
  "every text, initial offset, initial state, pseudo-close mode and case mode",
  "A non-advancing state combination only shows up on particular malformed texts; tests sample finitely many.",
  SC + "::Scanner::scan", SC + "::Scanner::internal_scan")
p("Tokens tile the text",
  "The tokens returned before EOS are contiguous: the first starts at the initial offset, each next token starts where the previous ended, and the last ends at the end of the text; so concatenating the token texts gives back the text.",
  "every text, initial offset within it, initial state and modes",
  "A gap or overlap needs one specific state/character pair; the property is about all of them.",
  SC + "::Scanner::scan", SC + "::Scanner::get_token_offset", SC + "::Scanner::get_token_end")
p("EOS is returned only at the end and stays",
  "scan returns EOS exactly when the position has reached the end of the text, and every later call returns EOS again with the same offsets.",
  "every scanner state reachable from any start",
  "Premature EOS on some malformed input would silently drop the rest of a document.",
  SC + "::Scanner::scan")
p("Empty tokens are only pseudo-close tags",
  "A token of length zero is returned only in pseudo-close mode, only as StartTagClose or EndTagClose, only directly before a '<'; the 'has not advanced' recovery of scan never runs.",
  "every text, start and mode",
  "The recovery path is a defensive branch no test can prove dead.",
  SC + "::Scanner::scan")
p("Panics of the scanner: exactly two causes",
  "On a valid UTF-8 text scanned from the start, scan panics only (a) when a white-space or C1 control character outside ASCII stands inside a tag after white space, or (b) when a text ends inside the quoted value of a type attribute with a non-ASCII last character. In particular it never panics on a text without such characters whose last character is ASCII. Both causes are real.",
  "every valid UTF-8 text, both modes",
  "Needs every byte offset reached to be a character boundary, for all texts.",
  SC + "::Scanner::internal_scan", SC + "::REG_NON_ELEMENT_NAME")
p("Token texts have their lexical shape",
  "Fixed tokens have fixed texts (StartTagOpen is \"<\", EndTagOpen \"</\", DelimiterAssign \"=\", StartCommentTag \"<!--\", EndCommentTag \"-->\", StartTagSelfClose \"/>\", non-empty StartTagClose/EndTagClose and EndDoctypeTag \">\"); Content contains no '<'; Whitespace is only white space; names contain none of the characters that delimit them.",
  "every token of every scan",
  "A token kind is produced from several states; all combinations have to agree.",
  SC + "::Scanner::internal_scan")
p("Script content ends at the matching close tag",
  "Inside a script element without type attribute, the Script token extends exactly to the first </script that the browser rule (<!-- ... <script ... </script ... --> nesting) does not skip, or to the end of the text; no markup inside is tokenised.",
  "every text that follows a script start tag",
  "The double-escape automaton has unboundedly many paths.",
  SC + "::ScannerState::WithinScriptContent", SC + "::REG_SCRIPT_COMMENT")
p("Style content ends at the first </style",
  "Inside a style element the Styles token extends to the first \"</style\" or the end of the text.",
  "every text that follows a style start tag",
  "Quantifies over every content.",
  SC + "::ScannerState::WithinStyleContent", SC + "::REG_STYLE")
p("Comments and doctypes are opaque",
  "After <!-- everything up to the first \"-->\" (or the end) is one Comment token, and after <!doctype everything up to the first '>' is one Doctype token; no other token starts inside.",
  "every text and comment content",
  "Quantifies over every content, including tags and script inside comments.",
  SC + "::ScannerState::WithinComment", SC + "::ScannerState::WithinDoctype")
p("Scanning can be resumed",
  "Starting a fresh scanner at the end of any token after which the scanner is back in plain content gives exactly the remaining tokens of the original scan.",
  "every text and every such token boundary",
  "Hidden state (last tag, last attribute, space flag) leaking across tokens is invisible to tests of single documents; selection ranges and completion rely on resuming.",
  SC + "::Scanner::new", SC + "::Scanner::scan")
# ---- parser --------------------------------------------------------------
p("Parsing is total",
  "parse_html_document returns a document for every text on which the scanner does not panic: none of its unwraps or map lookups fails and its loops terminate.",
  "every text, void element list and case mode",
  "Each unwrap is justified by an invariant relating scanner state and parser stack over the whole history.",
  PA + "::parse_html_document")
p("Node spans are well formed",
  "Every node satisfies start < end <= text length, children lie inside their parent in source order without overlap, and start < start_tag_end <= end_tag_start < end whenever those are present, with all children between start_tag_end and end_tag_start.",
  "every node of every parsed document",
  "Malformed nesting has unboundedly many shapes; all services index by these spans.",
  PA + "::parse_html_document", DO + "::Node")
p("One node per opening bracket, in source order",
  "The start offsets of the nodes in document order are exactly the offsets of the StartTagOpen tokens of the text, in order.",
  "every text",
  "A lost or duplicated node on some malformed text would not be seen by examples.",
  PA + "::parse_html_document")
p("Tag names are the source text",
  "If a node has a tag, the text following its '<' (after optional white space) is that tag; without white space it is the text at start+1. A node without a tag has no name after its '<'.",
  "every node of every parsed document",
  "Rename, highlight and linked editing compute ranges from this assumption.",
  PA + "::parse_html_document", DO + "::Node")
p("End tags are the source text",
  "If a node has end_tag_start = e then the text at e starts with \"</\", the node is closed, and the name after it equals the tag up to case (exactly in case-sensitive mode).",
  "every node of every parsed document",
  "The end tag may be arbitrarily far away and separated by malformed markup.",
  PA + "::parse_html_document")
p("An end tag closes the nearest open element of its name",
  "Processing an end tag closes the innermost open element whose name matches and implicitly ends everything opened inside it at the start of the end tag; if no open element matches the end tag has no effect on the tree.",
  "every stack of open elements and every end tag",
  "Stack depth is unbounded.",
  PA + "::parse_html_document", DO + "::Node::is_same_tag")
p("Closed flag is exact",
  "A node is closed iff it is self-closed with '/>', is a void element with a '>' or has a matching end tag; a closed node without end tag ends at its start_tag_end and has no children; a node not closed has no end_tag_start.",
  "every node of every parsed document",
  "Several code paths set the flag and later paths reset it.",
  PA + "::parse_html_document")
p("Attributes are those written",
  "The attribute map of a node has an entry exactly for the names appearing as attribute-name tokens in its start tag; the entry carries the offset and value of the last occurrence: no value without '=', the empty value for '=' with nothing after it, otherwise the literal value token.",
  "every start tag",
  "Duplicate names, missing values and malformed tags combine without bound.",
  PA + "::parse_html_document", DO + "::NodeAttribute")
p("Attribute order is source order",
  "attribute_names_by_order lists every attribute once, by increasing source offset, and the result does not depend on the hash map's iteration order.",
  "every node and every iteration order of the map",
  "Hash iteration order is randomised per process.",
  DO + "::Node::attribute_names_by_order")
p("Void elements never have content",
  "A node whose tag is in the void list, written in the list's case, never has children nor an end tag; in case-insensitive mode an upper-case void tag is not recognised.",
  "every node of every parsed document",
  "Universal over all documents.",
  PA + "::parse_html_document", "src/language_facts/data_manager.rs::HTMLDataManager::is_void_element")
p("Well-formed documents parse to their tree",
  "Rendering any well-formed element tree (names, quoted attributes, nested children, text) and parsing the result yields a document with exactly that tree, all elements closed and the spans being those of the rendering.",
  "every well-formed tree",
  "Round trip over all trees of any depth and width.",
  PA + "::parse_html_document")
p("Parser pointers stay valid",
  "The raw pointers kept in the parser's parent list always designate the current nodes of the tree under construction: every dereference is of a live node although vectors of children are reallocated.",
  "every token sequence",
  "Undefined behaviour from stale pointers after vector growth need not show up in a test run.",
  PA + "::parse_html_document")
# ---- document queries ----------------------------------------------------
p("find_node_at returns the deepest node containing the offset",
  "find_node_at(o) is the unique deepest node with start <= o < end, or none if no node contains o; the parent list is the chain of its ancestors, outermost first.",
  "every parsed document and offset",
  "Needs the search by start offsets to agree with containment on all trees.",
  DO + "::HTMLDocument::find_node_at", DO + "::Node::find_node_at")
p("find_node_before returns the last node opened before the offset that is still relevant",
  "find_node_before(o) returns a node starting before o; it returns none iff no node starts before o; the result is an ancestor-or-self of the last node (in document order) starting before o, and its parent list is its ancestor chain.",
  "every parsed document and offset",
  "The search mixes start and end comparisons over arbitrary trees.",
  DO + "::HTMLDocument::find_node_before", DO + "::Node::find_node_before")
p("find_root_at returns the first root ending at or after the offset",
  "find_root_at(o) is the first root with o <= end; every earlier root ends before o; none iff every root ends before o.",
  "every parsed document and offset",
  "Universal over documents.",
  DO + "::HTMLDocument::find_root_at")
p("find_token_type_in_node classifies offsets and panics only on incomplete tags",
  "For a node with tag and complete start tag every offset outside the node is Unknown, start is StartTagOpen, the name bytes are StartTag, offsets between start_tag_end and end_tag_start are Content; the function panics iff the offset is inside a node without tag, or past the name of a node whose start tag is incomplete.",
  "every node of every parsed document and every offset",
  "The unwraps depend on document shape.",
  DO + "::Node::find_token_type_in_node")
# ---- services ------------------------------------------------------------
p("Positions and offsets convert back and forth",
  "position_at is monotone and offset_at inverts it on every character boundary of the text.",
  "every valid UTF-8 text and offset",
  "Involves all line-ending and surrogate-pair combinations.",
  "Cargo.toml::lsp-textdocument", SV + "html_rename.rs")
p("Rename edits exactly the tag names",
  "do_rename returns edits only when the cursor is on the start or end tag name of the node; the edits are exactly the name in the start tag and, if there is an end tag, the name in the end tag, each replaced by the new name; in a document written without white space after '<' and '</' the replaced texts are the names.",
  "every document, cursor position and new name",
  "Ranges are recomputed from offsets by arithmetic that must match the source on all documents.",
  SV + "html_rename.rs::do_rename")
p("Renaming keeps the document structure",
  "Applying the rename edits to a rendered well-formed document gives the rendering of the same tree with that element's name replaced, and parsing it gives that tree.",
  "every well-formed tree, element and new name",
  "End-to-end statement over parser, search and edits.",
  SV + "html_rename.rs::do_rename", PA + "::parse_html_document")
p("Linked editing ranges are the two names",
  "find_linked_editing_ranges returns none or exactly the two name ranges of the node under the cursor, and only when the cursor is within one of them.",
  "every document and cursor position",
  "Offsets at the boundary of names on all documents.",
  SV + "html_linked_editing.rs::find_linked_editing_ranges")
p("Matching tag position is an involution",
  "If find_matching_tag_position maps p to q then it maps q back to p, for cursors inside the names of a node with complete tags.",
  "every document and cursor",
  "Needs the two computed names to be symmetric for every node.",
  SV + "html_matching_tag_position.rs::find_matching_tag_position")
p("Highlights are the name ranges",
  "find_document_highlights returns at most two read highlights, which are the start and end tag name ranges of the node under the cursor, and is non-empty only when the cursor touches one of them.",
  "every document and cursor",
  "Quantifies over all documents.",
  SV + "html_highlight.rs::find_document_highlights")
p("Document symbols mirror the tree",
  "find_document_symbols2 returns one symbol per node, nested exactly like the nodes; find_document_symbols lists the same nodes in document order, each with its parent's name as container.",
  "every parsed document",
  "Universal over trees.",
  SV + "html_symbols.rs::find_document_symbols", SV + "html_symbols.rs::find_document_symbols2")
p("Folding ranges are proper",
  "Every folding range returned satisfies start_line < end_line with lines inside the document, and comes from the document: from a start tag and a later tag closing that name, from the two comments of a region, or from one comment.",
  "every document and limit",
  "Universal over documents.",
  SV + "html_folding.rs::get_folding_ranges")
p("Folding range limit",
  "With a range limit the ranges returned are ranges returned without it; when the ranges are well nested (less than 30 deep) exactly the limit is returned and every range around a kept one is kept. For other ranges the number returned may exceed the limit, the answer may be empty, and the computation may panic (findings).",
  "every document and limit",
  "Level counting over arbitrary nesting.",
  SV + "html_folding.rs::limit_ranges")
p("Selection ranges nest and contain the cursor",
  "The chain returned for a position is ordered by inclusion from inner to outer, and every range contains the position's offset.",
  "every document and position",
  "Ranges come from three different sources which must be compatible on all documents.",
  SV + "html_selection_range.rs::get_selection_ranges")
p("Document links lie on attribute values",
  "Every document link range is the value of a path attribute token (without its quotes), in document order and without overlap; javascript: values and values containing line breaks give no link; every other value of a path attribute that refers somewhere has its link, an anchor leads to the last element with that id, a file address is kept without its query and fragment, other addresses are kept as they are, and a base element with a reference redirects the relative references behind it.",
  "every document",
  "Universal over documents and attribute values.",
  SV + "html_links.rs::find_document_links")
p("Quote stripping",
  "Stripping quotes from an attribute value removes exactly one matching pair; on a value that is a single quote character it panics (finding).",
  "every attribute value",
  "Corner cases of lengths 0 and 1.",
  SV + "html_links.rs::normalize_ref")
p("Reference resolution",
  "For a relative reference that does not climb above the root, DefaultDocumentContext::resolve_reference on a base with a path returns the base's scheme and authority followed by the normalised path; an absolute reference is returned unchanged; the cases in which it panics or leaves the base's authority are characterised (climbing above the root is a finding).",
  "every base and reference",
  "Arbitrary sequences of path segments.",
  "src/html_language_types.rs::DefaultDocumentContext::resolve_reference")
p("Tag completion closes the right element",
  "do_tag_complete after '>' returns the closing tag of the element whose start tag ends at the cursor, if and only if that element has a name, is not void and its end tag does not stand at the cursor; after '</' it returns the name of the innermost element open there (other than one this end tag already closes), with the '>' unless it is there; everywhere else nothing. This holds when no earlier tag is left unfinished; the exceptions are recorded as findings.",
  "every document and cursor",
  "Depends on global parser state.",
  SV + "html_completion.rs::do_tag_complete")
p("Quote completion",
  "do_quote_complete returns a snippet exactly when the cursor stands directly after an attribute name and its '=' with no value following, and the snippet has the configured quotes. This holds when no earlier tag is left unfinished (a finding otherwise).",
  "every document, cursor and setting",
  "Universal over documents.",
  SV + "html_completion.rs::do_quote_complete")
p("Completion never proposes an attribute twice",
  "Attribute name completion proposes no label twice and no attribute already present on the element, other than the one under the cursor.",
  "every document, cursor and data provider list",
  "Providers are user supplied.",
  SV + "html_completion.rs::CompletionContext::collect_attribute_name_suggestions")
p("Data manager lookups",
  "get_void_elements returns exactly the void tags of the providers applicable to the language, sorted; is_void_element answers membership; set_data_providers replaces the custom providers; is_path_attribute is true exactly for the documented tag/attribute pairs.",
  "every provider list, tag and attribute",
  "Binary search is only right on sorted lists; provider lists are user supplied.",
  "src/language_facts/data_manager.rs::HTMLDataManager")
p("Markdown is only sent to clients that support it",
  "Hover contents and documentation never contain Markdown when the client does not support it.",
  "every provider content and client capability",
  "Universal over contents.",
  SV + "html_hover.rs", "src/language_facts/data_provider.rs::generate_documentation")
p("Hover ranges contain the cursor",
  "A hover range reported for a tag, attribute or value contains the cursor offset and covers the token hovered.",
  "every document and cursor",
  "Universal over documents.",
  SV + "html_hover.rs::HTMLHover::do_hover")
p("Formatting is one edit at the selection",
  "Formatting gives exactly one text edit. For a whole document it covers the document; for a selection it goes from the start of the selection, extended over the blanks before it, to its end, extended over the blanks that end its line, so that apart from blanks it replaces what was selected, unless the selection starts a line. A selection that starts inside a tag is left as it is.",
  "every document, selection and option",
  "Universal over documents and selections.",
  SV + "html_formatter.rs::format", "src/beautify/beautify_html.rs::html_beautify")
p("Folding ranges nest",
  "Of two folding ranges of elements one lies inside the other or they share no line; a comment or region range may share only its closing line with another range.",
  "every document",
  "Universal over documents, tags that overlap and unclosed elements included.",
  SV + "html_folding.rs::get_folding_ranges")
p("Every multi-line element and comment folds",
  "Every element with balanced content that is closed by an end tag of the same spelling three or more lines further begins a folding range on its line, and every multi-line comment that is no region mark is a folding range.",
  "every document",
  "Universal over documents and nesting.",
  SV + "html_folding.rs::get_folding_ranges")
p("Completion edits stay at the cursor",
  "Every text edit that completion itself proposes replaces a range of the document that contains the cursor; items of a participant are passed on unchanged.",
  "every document, cursor, provider, participant and setting",
  "Universal over documents and cursors; the range is computed on nine different paths.",
  SV + "html_completion.rs::HTMLCompletion::do_complete")
p("Tag names proposed",
  "With the cursor in the name of a start tag, completion always answers, with exactly the tags of the applicable and enabled providers, each replacing the whole name.",
  "every document, cursor, provider and setting",
  "Universal over documents.",
  SV + "html_completion.rs::CompletionContext::collect_open_tag_suggestions")
p("Attribute values proposed",
  "With the cursor in an attribute value or right behind the equals sign, the values proposed are exactly those the applicable and enabled providers declare for that attribute on the tag of the element, after the answers of the participants; a value that is not written in quotes is put in quotes.",
  "every document, cursor, provider, participant and setting",
  "The attribute and the element are found by scanning the start tag up to the cursor.",
  SV + "html_completion.rs::CompletionContext::collect_attribute_value_suggestions")
p("End tag proposed",
  "Right behind '</' the one proposal is the end tag of the innermost named element still open there, with '>' added unless one follows; if no element is open, all tags of the applicable and enabled providers are proposed.",
  "every document whose tags before the cursor are finished, cursor, provider and setting",
  "Universal over documents and nesting.",
  SV + "html_completion.rs::CompletionContext::collect_close_tag_suggestions")
p("Completion answers",
  "Completion terminates for every document and position, and for every document of ASCII characters and every position whose column lies in its line it gives an answer.",
  "every document and position",
  "Byte slices, unwraps and subtractions on every path.",
  SV + "html_completion.rs::HTMLCompletion::do_complete")
p("Formatting keeps the elements",
  "The new text has, apart from white space, exactly the characters of the elements of the formatted text in document order: names, attributes with their values in order, text content and end tags.",
  "every document, selection and option",
  "Universal over documents, nesting and options.",
  SV + "html_formatter.rs::format", "src/beautify/beautify_html.rs::html_beautify")
p("Formatting answers",
  "Formatting a document gives an answer unless the parser fails or an element that would be written has no name, and so does formatting a selection that starts neither at the start of the text nor on its first line, with a positive tab size.",
  "every document, selection and option",
  "Slices, unwraps and divisions on every path.",
  SV + "html_formatter.rs::format", "src/beautify/beautify_html.rs::html_beautify")
p("Formatting a tidy document changes white space only",
  "If every element is closed by its own end tag or by '/>', and there is only white space between the top-level elements, the formatted document and the original differ in white space only.",
  "every tidy document and option",
  "Universal over documents, nesting and options.",
  SV + "html_formatter.rs::format", "src/beautify/beautify_html.rs::html_beautify")
p("Layout of start tags",
  "Every element that is written has its start tag indented by its depth, on one line if that line is no longer than the line length, and otherwise with each attribute on a line of its own; below the top level it starts on a new line.",
  "every document, element and option",
  "Universal over documents, depth and attributes.",
  SV + "html_formatter.rs::format", "src/beautify/beautify_html.rs::html_beautify")
p("Requests are answered in any script",
  "Completion gives an answer at every cursor of every document that can be parsed, except in an attribute value that begins with a character that is not ASCII or has one in the word at the cursor between its quotes, where it always fails. Hover, tag completion, quote completion, folding and selection ranges give an answer at every cursor of every document without non-ASCII white space or C1 control characters that ends with an ASCII character, selection ranges except in an element ended by an end tag that has a non-ASCII name and no '>'.",
  "every document of Unicode characters and every cursor",
  "Byte slices off character boundaries, unwraps and subtractions on every path, for every mix of scripts.",
  SV + "html_completion.rs::HTMLCompletion", SV + "html_hover.rs::HTMLHover", SV + "html_selection_range.rs::get_selection_ranges", SV + "html_folding.rs::get_folding_ranges")
p("An outdated tree is survived",
  "The services take the text and a tree from the caller and nothing makes them agree. On ASCII text every request (completion, hover, tag and quote completion, selection ranges, highlights, rename, linked editing, matching tag) gives an answer with the tree of any other text. On other text without non-ASCII white space or C1 controls that ends in ASCII, highlights, hover, tag and quote completion give an answer with any tree at all, and completion with any tree whose elements begin between characters of the text, when the word at the cursor is ASCII.",
  "every text, every tree or tree of another text, every cursor",
  "Histories of edits and requests in any order: every pair of a text and a tree.",
  SV + "html_completion.rs::HTMLCompletion", SV + "html_hover.rs::HTMLHover", SV + "html_selection_range.rs::get_selection_ranges", SV + "html_highlight.rs::find_document_highlights", SV + "html_rename.rs::do_rename", "src/parser/html_document.rs::HTMLDocument")
p("A session survives and remembers only what it was told last",
  "A service is created, a document is opened, and then documents, parses, participants, data providers and requests come in any order and number. If the documents are ASCII, every request gets a reply of its kind: completion, hover, tag and quote completion, highlights, symbols, folding without limit, selection ranges, rename, matching tag, linked editing, links in documents that meet the conditions of C61, and formatting of whole documents that have no nameless element. Whatever happened before, a reply is the one of a service made anew that was told only the participants and providers told last, for the document as it is and the tree of the last parse. Requests change nothing. The case option is the one of every part of the service at all times.",
  "every history of edits, parses, reconfigurations and requests",
  "Histories: every interleaving of calls.",
  "src/html_language_service.rs::HTMLLanguageService", "src/language_facts/data_manager.rs::HTMLDataManager::set_data_providers")
p("Finding links gives an answer",
  "With the resolver the crate comes with and a document whose address is a URI with a scheme, finding links gives an answer on every text without non-ASCII white space or C1 control characters that ends with an ASCII character, if no attribute value is a single quote, if a link or address that starts with 'file:' goes on with a slash, and if a link behind a base tag resolves to a URI with a scheme. With another resolver the same holds if it answers for the address and for what links behind a base tag resolve to.",
  "every document, address, resolver, and URI parser that cuts queries and fragments as RFC 3986 does",
  "Every unwrap of a parsed and reassembled URI, for every link of every document.",
  SV + "html_links.rs::find_document_links", SV + "html_links.rs::validate_ref", "src/html_language_types.rs::DefaultDocumentContext")
p("Patterns mean what they say",
  "Doctypes, element names, attribute names, unquoted values, ends of script and style content, region comments, links, schemes, javascript links, white space and words are recognised as the leftmost match of the regular expression written in the source, in the order a backtracking search tries them, for every text of Unicode characters.",
  "every UTF-8 text and every assignment of word characters and digits beyond ASCII (digits are word characters, word characters are not white space)",
  "Universal over texts; tests only meet a few.",
  "src/parser/html_scanner.rs::REG_SCRIPT_COMMENT", SV + "html_links.rs::REG_REF", SV + "html_folding.rs::REG_REGION", SV + "html_formatter.rs::format", "src/beautify/beautify_html.rs::beautify_text", SV + "html_completion.rs::REG_WHITE_SPACE", SV + "html_hover.rs::REG_QUOTE", "src/utils/strings.rs::is_letter_or_digit")
p("Formatting keeps the document",
  "Formatting a well-formed document (elements properly nested and closed, comments, doctypes, script and style elements, void and self-closing elements, attributes with or without quotes) gives one edit whose text is again well-formed and parses to the same tree: the same elements in the same nesting, each closed and ended as before, with the same attributes and values in the same order. Inside the elements every comment, doctype and text keeps its words, in the same place of the tree; what is outside of all elements is dropped.",
  "every well-formed document, all format options, both case modes",
  "Universal over documents and options: nothing the formatter writes may be read differently from what it was made of.",
  SV + "html_formatter.rs::format", "src/beautify/beautify_html.rs::html_beautify", PA + "::parse_html_document")
p("Formatting settles",
  "Formatting a well-formed document again and again changes it at most three times: the fourth time it stays as it is. Twice is enough when every element that contains elements goes over several lines, once when besides no text shares its line with an element.",
  "every well-formed document, all format options, both case modes",
  "A statement about all iterations on all documents; idempotence on examples says nothing about others.",
  SV + "html_formatter.rs::format", "src/beautify/beautify_html.rs::beautify_node", "src/beautify/beautify_html.rs::beautify_text")
p("Earlier markup does not change how the rest is read",
  "A well-formed document put in front of any text, broken or not, leaves the reading of that text alone: the tree of the whole is the tree of the well-formed part followed by the tree the text has on its own, every offset moved by the length of what is in front. So two documents that begin well-formed and end in the same text have the same tree for that text but for the places.",
  "every well-formed beginning, every UTF-8 text behind it, both case modes, every set of void elements",
  "Universal over beginnings and rests: nothing remembered by scanner or parser from earlier tags may matter.",
  "src/parser/html_scanner.rs::Scanner::scan", PA + "::parse_html_document")
p("Typed tags complete themselves",
  "When the '>' of a start tag was just typed inside any nesting of elements whose end tags are still missing, the end tag with the name of that element is proposed, whatever text follows, unless what follows is already an end tag of that name, for which nothing is proposed. When '</' was just typed after the content of an element, the name of that element and '>' are proposed, whatever follows, without the '>' if one is there. If the document is well-formed but for that one missing end tag, inserting what is proposed gives the well-formed document.",
  "every sequence of enclosing start tags, every well-formed content before and between them, every UTF-8 text behind the cursor that can be parsed, both case modes, every set of void elements",
  "Universal over contexts and over the unfinished rest of the document, which is the normal state while typing.",
  SV + "html_completion.rs::do_tag_complete", PA + "::parse_html_document")
p("Lines above do not change the answers",
  "Put well-formed markup above a document, so that the document's places move down by m lines. Then every question about a place of the document is answered as before, with all places in the answer moved down by m lines: rename, linked editing, matching tag, highlights and symbols (those of the added markup come first) for any document below, broken or not; hover if the added markup consists of whole lines; quote and tag completion behind the start of the first element of the document; completion there too if the added markup consists of whole lines without data- attributes and the place is not in the first line. For line and UTF-16 column positions, adding whole lines moves places down by the number of these lines.",
  "every well-formed markup above, every UTF-8 document below that can be parsed, every place, data provider and participant that answers likewise further down, both case modes",
  "Universal over what stands above, what stands below, and where the cursor is.",
  SV + "html_rename.rs::do_rename", SV + "html_linked_editing.rs::find_linked_editing_ranges", SV + "html_highlight.rs::find_document_highlights", SV + "html_hover.rs::do_hover", SV + "html_completion.rs::do_complete", SV + "html_completion.rs::do_quote_complete", SV + "html_completion.rs::do_tag_complete")
p("Lines of formatted documents",
  "Formatting a document gives lines with no more blank lines in a row than the options allow: none if line feeds are not preserved, at most the maximum otherwise. Blank lines in front of, between and behind the children of an element are kept up to that number, and the words of the other lines there are written with one space between them, one level deeper than the element. Every element with an end tag is written as its start tag, text behind that on the same line, further lines that are empty or indented at least one level deeper than the element, and the end tag: directly behind them if the element is kept short, on a line of its own with the indentation of the element if not. An element is kept short if its content has no line feed, its start tag fits on a line and the whole is shorter than the line length. An element without children is then on one line, and otherwise has no text behind its start tag.",
  "every document, broken or not, whose written attribute values have no line feed, all format options but attributes wrapped with tabs, both case modes, every element at every depth",
  "Universal over documents, options and elements; every line of the output counts.",
  SV + "html_formatter.rs::format", "src/beautify/beautify_html.rs::beautify_node", "src/beautify/beautify_html.rs::beautify_text", "src/beautify/beautify_html.rs::node_is_wrap")
p("What completion proposes outside of tag names and values",
  "Right behind a '<' completion proposes the doctype on the first line of the document and nowhere else, every tag of the data in use, and the end tag of the innermost element around that is not closed before the cursor, if there is one; the proposals replace the name that follows, and the end tag also corrects the indentation when only blanks precede it on its line. In the white space behind '<' the same, without the doctype. In an end tag the innermost element still open is proposed in place of what is there, and the end tags of all known tags if none is open. In text the named character references are proposed exactly if the cursor is behind '&' and letters and digits, replacing from the '&' to the cursor, besides what the participants add. Right behind the '>' of a start tag the matching end tag is proposed behind the cursor, unless the element is void or the settings forbid it. In comments, doctypes, scripts, style sheets and behind other closing brackets nothing is proposed. Attribute names are written with '=' and a place for the value in the quotes of the settings, without if the attribute takes none or a '=' follows.",
  "every document, broken or not, that can be parsed; every cursor position of the kinds named, every set of data providers, participants and settings, both case modes",
  "Universal over documents and cursor positions: each proposal and each edit is fixed, and so is the absence of any other.",
  SV + "html_completion.rs::do_complete", SV + "html_completion.rs::collect_open_tag_suggestions", SV + "html_completion.rs::collect_close_tag_suggestions", SV + "html_completion.rs::collect_character_entity_proposals", SV + "html_completion.rs::collect_auto_close_tag_suggestion", SV + "html_completion.rs::collect_attribute_name_suggestions")
p("What stands below does not change the answers",
  "Put any text, broken or not, below a well-formed document. Then every question about a place of the well-formed part, in front of its end, is answered exactly as it was without the text below: rename, linked editing, matching tag, highlights, hover, quote and tag completion, and completion if the text below has no data- attributes. The symbols of the well-formed part come first, unchanged, followed by those of the text below. The text below must not go on with text that the well-formed part ends with, and for rename, linked editing and matching tag the two names of an element must be equally long (they may differ in case).",
  "every well-formed document, every UTF-8 text below it that can be parsed, every place of the document, all data providers, participants and settings, both case modes",
  "Universal over what stands below, which is what changes while a document is written from top to bottom.",
  SV + "html_rename.rs::do_rename", SV + "html_linked_editing.rs::find_linked_editing_ranges", SV + "html_matching_tag_position.rs::find_matching_tag_position", SV + "html_highlight.rs::find_document_highlights", SV + "html_symbols.rs::find_document_symbols", SV + "html_hover.rs::do_hover", SV + "html_completion.rs::do_complete", SV + "html_completion.rs::do_quote_complete", SV + "html_completion.rs::do_tag_complete")
p("Accepting a proposal gives the document it promises",
  "In a well-formed document the client accepts a proposal: it puts the proposal's text, without the tab stops of a snippet, in the place of the range that comes with it. Accepting an attribute name gives the document in which the attribute at the cursor is named so, with the value it had, or an empty one in quotes if it had none; in the white space of a tag one more attribute. Accepting an attribute value replaces the value, in quotes if it had none, or the one word of a quoted value at the cursor. Accepting the end tag behind the '>' of a start tag gives the well-formed document if only that end tag was missing. Accepting a character reference puts it in the place of the '&' and the letters behind it. All else stays as it was, the result is well-formed again, and its tree is that of the changed document.",
  "every well-formed document, every element and attribute at every depth, every cursor position of the kinds named, all data providers whose names and values are plain, all settings (with quotes for attributes without a value), both case modes",
  "Universal over documents, cursors and data: what the user gets is the edit applied to the text and read again, and tests only look at the edit.",
  SV + "html_completion.rs::do_complete", SV + "html_completion.rs::collect_attribute_name_suggestions", SV + "html_completion.rs::collect_attribute_value_suggestions", SV + "html_completion.rs::collect_auto_close_tag_suggestion", SV + "html_completion.rs::collect_character_entity_proposals", PA + "::parse_html_document")
p("Custom data files",
  "A text is read as custom data exactly if it is a JSON text (RFC 8259, blanks around it allowed) whose value has the documented shape: an object with a version number and optionally tags, global attributes and value sets, each member at most once and in any order, other members ignored, null the same as absent for optional members; tags must have a name and a list of attributes, value sets a name and a list of values, references a name and a URL, and descriptions are a string or an object with kind and value. The data got is the data described. Custom data written as JSON and read again is the same, whatever bytes its strings contain, if its version is a finite number. One tag without attributes and the whole file is refused. The built-in data is read without a panic and is the table the other properties are about.",
  "every text, every custom data, every library for floating point numbers that reads what it writes",
  "Universal over file contents and data: every string, escape, nesting, order and repetition of members.",
  "src/html_data.rs::HTMLDataV1", "src/html_data.rs::ITagData", "src/html_data.rs::IAttributeData", "src/html_data.rs::IValueSet", "src/html_data.rs::IValueData", "src/html_data.rs::IReference", "src/html_data.rs::Description", "src/language_facts/web_custom_data.rs::HTML_DATA_INSTANCE")
p("Scanning a well-formed document gives its pieces",
  "The scanner run from the start of a well-formed document to its end reports exactly the pieces the document is written with, in their order: brackets, tag names, white space inside of tags, attribute names, '=' signs, values with their quotes, text, comments, doctypes, scripts and style sheets, each with its kind, its text and its offsets, none of them with an error, and nothing else. The texts of the pieces, one behind the other, are the document.",
  "every well-formed document of any size and nesting, both case modes, with and without pseudo close tags",
  "Universal over documents: every token of every document is fixed.",
  SC + "::Scanner::scan", SC + "::Scanner::get_token_type", SC + "::Scanner::get_token_offset", SC + "::Scanner::get_token_text", SC + "::Scanner::get_token_error")
p("The folding ranges of a well-formed document",
  "In a well-formed document whose elements have end tags that repeat the name as it is written in the start tag, and whose region markers are paired among siblings (each end has its start among the siblings before it; starts may be left open), the folding ranges are these: for each element that spans more than two lines, from the line of its name to the line before the one it ends on; for each comment on more than one line that is no region marker, from the line its text begins on to the line it ends on, marked as comment; for each pair of region markers on different lines, from the line of the first to the line of the second, marked as region. Those inside an element come before that of the element. The range of an element or a region is left out if it begins on the line where the range reported before it begins; if all begin on different lines none is left out.",
  "every well-formed document of any size and nesting with paired regions, every set of void elements, both case modes",
  "Universal over documents: the whole list of ranges is fixed.",
  SV + "html_folding.rs::get_folding_ranges")
p("The links of a well-formed document",
  "In a well-formed document the links are exactly these, in the order of the text: one for each attribute value that the table of path attributes has as a path, whose text has a letter or digit and is no javascript: URL, and that points somewhere. The range of the link is the value without its quotes, and its target is what the value points to, cleaned; if that is an anchor of the document itself it is replaced by the line and column of the last element with that id, or by the document if there is none. The first path after the name of a base tag gives no link; the first such path of the document, resolved against its address, is the base that later paths are resolved against.",
  "every well-formed document of any size and nesting, every address of the document, every way to resolve references, every URI library, both case modes",
  "Universal over documents: the whole list of links is fixed, and so is the absence of any other.",
  SV + "html_links.rs::find_document_links", SV + "html_links.rs::create_link", SV + "html_links.rs::get_workspace_url")
p("The selection ranges of a well-formed document",
  "At every cursor of a well-formed document the selection ranges are exactly these, from the inside out, equal neighbours once: if the innermost element at the cursor has an end tag and the cursor is in its start tag, the value of the attribute at the cursor without its quotes, the value, or the name, then the whole attribute, the tag without its brackets and the element; in its content the content and the element; in its end tag the tag without its brackets and the element; if it has no end tag, the ranges of the attribute and the tag without its brackets (a '/' at its end counts as part of the bracket). Then for each element around it the content and the element, and last the range from the first element of the document to the end of the last. With positions in lines and UTF-16 columns the answer is always given.",
  "every well-formed document of any size and nesting, every cursor, both case modes, every way to count positions",
  "Universal over documents and cursors: the whole chain of ranges is fixed.",
  SV + "html_selection_range.rs::get_selection_ranges", SV + "html_selection_range.rs::get_applicable_ranges", SV + "html_selection_range.rs::get_attribute_level_ranges")
p("A selection is formatted like a document of its own",
  "What is written for a selection that does not start inside a tag does not depend on the text around it: it is exactly what formatting the selected text, extended over the blanks around it, gives as a document of its own. It gets an answer exactly when that document does, provided the tab size is positive and the selection starts neither at the start of the text nor on its first line. So what holds of formatted documents holds of formatted selections: of well-formed elements the names, attributes and words stay.",
  "every document, selection and set of options, both case modes; positions in lines and UTF-16 columns",
  "The text around a selection is unbounded, and the code looks at the line in front of it to find an indentation.",
  "src/services/html_formatter.rs: format, compute_indent_level, trim_left")
p("Tag services and symbols of a well-formed document",
  "With the cursor on the name of an element, in its start tag or its end tag, highlighting gives both names as they are written, linked editing gives the same ranges (for elements with both tags), renaming replaces exactly these, and the matching position is the same place of the other name. With the cursor on no name all four give nothing. The symbols are the elements, nested as they are, each on its whole element, labelled by name, # and id, and a dot and the name of each class.",
  "every well-formed document of any size and nesting, every element of it, every cursor, both case modes (linked editing, matching and renaming: elements whose two names are equally long, as they are for ASCII names)",
  "Elements may be nested in any way, names repeat, and names are looked for again in the text from the node's offsets.",
  SV + "html_highlight.rs::find_document_highlights", SV + "html_linked_editing.rs::find_linked_editing_ranges", SV + "html_matching_tag_position.rs::find_matching_tag_position", SV + "html_rename.rs::do_rename", SV + "html_symbols.rs::find_document_symbols2")

p("Hovering over a well-formed document",
  "With the cursor on the name of an element (in either tag) the hover is the tag's documentation on that name; on an attribute's name it is that of this attribute of this tag on the name; on an attribute's value (or its quotes) that of this value, without quotes, of this attribute of this tag on the value as written; on a character reference, in a value or in the text, the character it stands for on the reference; elsewhere in the element what the participants say, in the rest of the end tag and outside of all elements nothing. Every cursor is in one of these cases.",
  "every well-formed document of any size and nesting, every element and attribute of it, every cursor at a character boundary, all data, participants and settings, both case modes",
  "Tags, attributes and references can be nested and repeated in any number, and the cursor may be at either end of each.",
  SV + "html_hover.rs::do_hover", SV + "html_hover.rs::get_tag_name_range", SV + "html_hover.rs::scan_attr_and_attr_value", SV + "html_hover.rs::get_entity_range", "src/parser/html_document.rs::find_node_at")

p("Completion in a well-formed document",
  "What is proposed depends only on what the cursor is on. Behind the '<' of an element: !DOCTYPE on the first line, all tags, and the end tag of the element around it. On its name: all tags. Where the name of an attribute is or can be: the names for this element but those of its other attributes, data- and the data- names of the whole document; they replace the name at the cursor and bring a place for the value, in the quotes of the settings, unless there is a '=' or the attribute takes no value. On a value: the values of this attribute of this element, replacing the value or, inside quotes, the word at the cursor. Behind its '>': its end tag, unless it is void or the settings say no. In its end tag, up to the end of the name: the end tag of the element around it, or all end tags if there is none. In text: what the participants say and, in a reference, the entities. In comments, doctypes, scripts and styles, behind '/>' and in the rest of an end tag: nothing. In front of the first element: nothing. Every cursor is in one of these cases.",
  "every well-formed document of any size and nesting, every element and attribute of it, every cursor, all data, participants and settings, both case modes",
  "Tags, attributes and text can be nested and repeated in any number, and each piece has an inside and two ends.",
  SV + "html_completion.rs::do_complete", SV + "html_completion.rs::collect_attribute_name_suggestions", SV + "html_completion.rs::collect_attribute_value_suggestions", SV + "html_completion.rs::collect_close_tag_suggestions", "src/parser/html_document.rs::find_node_before")

p("The helpers for typing in a well-formed document",
  "In a well-formed document the helper for end tags answers exactly in two places. Behind the '>' of the start tag of an element that is not void and not closed by '/>', unless its end tag follows at once: with the end tag of that element. Behind the '</' of an end tag of an element that is in another one: with the name of the one around it and '>'. The helper for quotes answers nowhere. Where only the quotes of an empty value are missing in a well-formed document, with the '=' directly behind the name and no '/' next, it answers with the quotes of the settings, and putting them in gives the well-formed document, which is read as written.",
  "every well-formed document of any size and nesting, every cursor, every element and attribute of it, all data and settings, both case modes",
  "Elements can be nested in any way, and the helpers search the whole tree for the element and scan from its start.",
  SV + "html_completion.rs::do_tag_complete", SV + "html_completion.rs::do_quote_complete", "src/parser/html_document.rs::find_node_before")

p("The tree of tags in any order",
  "A document that is any sequence of complete start tags, end tags and other pieces, with end tags missing, misplaced or overlapping, is parsed without a panic to exactly one tree. An end tag closes the innermost open element of its name; elements still open inside of that one end where the end tag begins and are reported as not closed. An end tag for which nothing is open stands for nothing. What is open at the end of the document ends there and is not closed. Adding the missing end tags at the end, innermost first, leaves names, starts, start tags, attributes and nesting of all elements as they were.",
  "every sequence of tags and other pieces of any length and in any order, each well-formed by itself, all lists of void elements, both case modes",
  "Documents being edited have unbalanced tags in unlimited combinations; tests show single ones, and a wrong choice of the element to close misplaces every node behind it.",
  "src/parser/html_parse.rs::parse_html_document", "src/parser/html_document.rs::Node")

p("Closing what is open in an unfinished document",
  "At the end of any sequence of complete start tags, end tags and other pieces: behind a '</' the helper proposes the end tag of the innermost element that is still open, and nothing if none is open. Typing '</' and accepting the proposal again and again writes exactly the missing end tags and then ends; the document it leads to has all elements at the same place as before. Behind the '>' of a start tag at the end its end tag is proposed, unless the element is declared void. The tokens of such a document are the pieces of its parts.",
  "every sequence of tags and other pieces of any length and in any order, each well-formed by itself, all data, both case modes",
  "Which element is open depends on everything before: overlapping elements, end tags that match nothing and any depth; the claim about repeated typing is about histories of any length.",
  SV + "html_completion.rs::do_tag_complete", PA + "::parse_html_document", DO + "::find_node_before", SC + "::Scanner")

p("Folding ranges and links of tags in any order",
  "In any sequence of complete start tags, end tags and other pieces, with end tags missing, misplaced or overlapping, the folding ranges are those of the closed elements of the tree, from the line of the name to the line before the end, and those of the comments, in the order in which they end; elements that are not closed do not fold. A range is passed over if the one reported before it begins on the same line. The links are those of the attributes of the start tags, in the order of the text, whatever the tags close.",
  "every sequence of tags and other pieces of any length and in any order, each well-formed by itself; for folding without region comments and with names that are the same written alike",
  "Unbalanced tags come in unlimited combinations, and the folding service keeps a stack of its own that has to agree with the tree of the parser in all of them.",
  SV + "html_folding.rs::get_folding_ranges", SV + "html_links.rs::find_document_links", PA + "::parse_html_document")

p("Names of tags in any order",
  "In any sequence of complete start tags, end tags and other pieces, with end tags missing, misplaced or overlapping, each element of the tree has its name in its start tag and, if it is closed, in the end tag that closes it, and in no other place. On one of these names the highlights are just them; if both have the same number of bytes, linked editing gives both, the matching position is the same place of the other one, and a rename replaces just them; an element left open has only the name of its start tag, which is renamed alone. Everywhere else, as on an end tag that closes nothing, there are no highlights, no linked ranges, no matching position and no rename.",
  "every sequence of tags and other pieces of any length and in any order, each well-formed by itself, every element of the tree, every cursor, every new name, both case modes",
  "Which end tag belongs to which start tag depends on all tags between them and before them; a rename that takes the wrong one damages the document.",
  SV + "html_highlight.rs::find_document_highlights", SV + "html_linked_editing.rs::find_linked_editing_ranges", SV + "html_matching_tag_position.rs::find_matching_tag_position", SV + "html_rename.rs::do_rename", PA + "::parse_html_document")

p("Renaming among tags in any order",
  "In any sequence of complete start tags, end tags and other pieces, with end tags missing, misplaced or overlapping: the edits of a rename at the name of an element replace its name in its start tag and in the end tag that closes it, if there is one, and leave all else as it is. If no tag of the document has the new name and it is neither void nor script nor style, the document after the rename is parsed to the same tree: every element has its place, its children, its attributes and its name, but for the renamed one, which has the new name.",
  "every sequence of tags and other pieces of any length and in any order, each well-formed by itself, every element of the tree whose names have the same number of bytes, every cursor on one of them, every new name, both case modes",
  "Whether an end tag still closes the same element after a rename depends on all names around and inside of it, in unlimited combinations; tests rename balanced elements.",
  SV + "html_rename.rs::do_rename", PA + "::parse_html_document", DO + "::find_node_at")

p("What is proposed at the end of an unfinished document",
  "At the end of any sequence of complete start tags, end tags and other pieces, with end tags missing, misplaced or overlapping: behind a '<' completion proposes the doctype on the first line and nowhere else, every tag of the data in use, and the end tag of the innermost element left open, if there is one and nothing otherwise; behind a '</' that end tag alone, or, if no element is left open, the end tags of all the tags of the data in use. Unless only white space is in front of the '<' on its line, accepting the end tag inserts just what is missing, and the document that results has the same elements left open but for that one.",
  "every sequence of tags and other pieces of any length and in any order, each well-formed by itself, all data, settings and participants, both case modes",
  "Completion is asked for in documents that are unfinished, and what is open at the end depends on every tag before it, in unlimited combinations.",
  SV + "html_completion.rs::do_complete", PA + "::parse_html_document", DO + "::find_node_before")

p("Closing what is open, whatever follows",
  "Behind any sequence of complete start tags, end tags and other pieces, with end tags missing, misplaced or overlapping, and in front of any text at all: when '</' is typed, tag completion proposes the rest of the end tag of the innermost element left open there, without the '>' if that is the next byte, unless the '</' already begins the end tag of that element; if no element is left open nothing is proposed. When the '>' of a start tag is typed, its end tag is proposed, unless that is the next thing. In front of a tag, a '>' or the end of the text a '</' begins no end tag with a name.",
  "every sequence of tags and other pieces of any length and in any order, each well-formed by itself, every text behind the cursor, both case modes, all data",
  "Tags are typed in the middle of a document; what is open there depends on every tag before the cursor, and all the text behind it, well-formed or not, is parsed before the answer is given.",
  SV + "html_completion.rs::do_tag_complete", PA + "::parse_html_document", DO + "::find_node_before")

p("Hovering over tags in any order",
  "Behind any sequence of complete start tags, end tags and other pieces, with end tags missing, misplaced or overlapping, and in front of any text at all, the cursor is on a start tag: on its name the hover explains the tag, on the name of an attribute that attribute of the tag, and on a value, with its quotes, the value without its quotes of that attribute, each with the range of what it explains. In the end tag that closes an element of any document, the hover on the name explains the tag of the element, with the range of the name in the end tag; elsewhere in the end tag there is none.",
  "every sequence of tags and other pieces of any length and in any order, each well-formed by itself, every start tag with any attributes, every text behind it, every cursor, all data, participants and settings, both case modes; for end tags every document",
  "A hover is asked for while the document is incomplete; whether the tag is found depends on all tags before the cursor, and all the text behind it is parsed before the answer is given.",
  SV + "html_hover.rs::do_hover", PA + "::parse_html_document", DO + "::find_node_at")

p("Quotes in an unfinished start tag",
  "Behind any sequence of complete start tags, end tags and other pieces, with end tags missing, misplaced or overlapping, a start tag is being typed: its name, any attributes, the name of one more and its '='. Whatever text follows, the configured quotes are proposed right behind the '=' exactly if the text ends there or white space or a '>' comes next.",
  "every sequence of tags and other pieces of any length and in any order, each well-formed by itself, every name and list of attributes, every text behind the '=', all settings, both case modes",
  "Quotes are always asked for in a tag that is not finished yet, and the text behind the cursor then is anything; whether they are proposed depends on where the tags before the cursor put the scan.",
  SV + "html_completion.rs::do_quote_complete", SC + "::scan", DO + "::find_node_before")

p("The name of a tag being typed in an unfinished document",
  "Behind any sequence of complete start tags, end tags and other pieces, with end tags missing, misplaced or overlapping, the name of a tag is being typed behind a '<'. With the cursor in or right behind the name, and whatever follows the name, completion always answers: it proposes exactly the tags of the data in use, and accepting one replaces the name and changes nothing else.",
  "every sequence of tags and other pieces of any length and in any order, each well-formed by itself, every name, every text behind it that does not continue the name, every cursor in the name, all data, participants and settings, both case modes",
  "This is the state in which completion of tags is used; the place of the name follows from scanning everything before it, and the text behind it may be taken for more of the tag.",
  SV + "html_completion.rs::do_complete", SC + "::scan", SV + "html_completion.rs::CompletionContext::collect_open_tag_suggestions")

p("The end tag proposed, whatever follows",
  "Behind any sequence of complete start tags, end tags and other pieces, with end tags missing, misplaced or overlapping, and in front of any text at all, '</' has been typed. Completion right behind it always answers, and proposes the end tag of the innermost element left open and nothing else, in place of the '/' and the name that follows, if one does, unless the '</' already begins that end tag. When no element is left open it proposes the end tags of all tags of the data in use, or nothing if no element begins before the cursor.",
  "every sequence of tags and other pieces of any length and in any order, each well-formed by itself, every text behind the '</', all data, participants and settings, both case modes",
  "The text behind the cursor is parsed together with the '</' and may be taken for its name or swallowed by it, in the middle of any document; what is open depends on all tags before.",
  SV + "html_completion.rs::do_complete", SV + "html_completion.rs::CompletionContext::collect_close_tag_suggestions", PA + "::parse_html_document")

p("Proposals behind a '<', whatever follows",
  "Behind any sequence of complete start tags, end tags and other pieces, with end tags missing, misplaced or overlapping, and in front of any text that does not turn it into something else, '<' has been typed. Completion right behind it always answers, and proposes exactly the tags of the data in use, each in place of the name that follows, if one does, the document type if the cursor is on the first line, and the end tag of the innermost element left open, if there is one.",
  "every sequence of tags and other pieces of any length and in any order, each well-formed by itself, every text behind the '<' that does not begin with '/', '!' or '<', all data, participants and settings, both case modes",
  "The '<' begins an element of its own whose extent depends on all the text behind it, and this element must not change which one around it is proposed to be closed.",
  SV + "html_completion.rs::do_complete", SV + "html_completion.rs::CompletionContext::collect_close_tag_suggestions", PA + "::parse_html_document")

p("Values in an unfinished start tag",
  "Behind any sequence of complete start tags, end tags and other pieces, with end tags missing, misplaced or overlapping, a start tag is being typed: its name, any attributes, the name of one more and its '='. Whatever text follows, completion right behind the '=' always answers: the answers of the participants for this tag and attribute, and then exactly the values the data in use have for this attribute of this tag, each to be written in quotes over the value that follows, if one does. When none follows, accepting one inserts it in quotes and changes nothing else.",
  "every sequence of tags and other pieces of any length and in any order, each well-formed by itself, every name and list of attributes, every text behind the '=', all data, participants and settings, both case modes",
  "The tag is not finished when values are asked for; which tag and attribute the values are for follows from scanning and parsing everything before the cursor, with arbitrary text behind it.",
  SV + "html_completion.rs::do_complete", SV + "html_completion.rs::CompletionContext::collect_attribute_value_suggestions", SC + "::scan", DO + "::find_node_before")

p("Attribute names in an unfinished start tag",
  "Behind any sequence of complete start tags, end tags and other pieces, with end tags missing, misplaced or overlapping, a start tag is being typed: its name, any attributes, and white space, behind which the text ends or a '<' or '>' and then anything follows. In that white space completion always answers, and it proposes exactly 'data-', the attributes the data in use have for the tag, and the attributes of the whole document whose names begin with 'data-', the last two without those the tag has already; each once.",
  "every sequence of tags and other pieces of any length and in any order, each well-formed by itself, every name, list of attributes and white space, every text from the '<' or '>' on, every cursor in the white space, all data, participants and settings, both case modes",
  "The tag is not finished when its attributes are asked for; which attributes it has already depends on where the scan of a cut-off tag ends, and the text behind it may be taken for more of them.",
  SV + "html_completion.rs::do_complete", SV + "html_completion.rs::CompletionContext::collect_attribute_name_suggestions", SC + "::scan", DO + "::find_node_before")

p("The name of an attribute being typed in an unfinished document",
  "Behind any sequence of complete start tags, end tags and other pieces, with end tags missing, misplaced or overlapping, the name of an attribute is being typed in a start tag: behind it the text ends or a '<' or '>' and then anything follows. With the cursor in or right behind that name completion answers, and it proposes exactly 'data-', the attributes the data in use have for the tag without those the tag has already, except that the one at the cursor stays, and the attributes of the whole document whose names begin with 'data-' and that the tag does not have; each once.",
  "every sequence of tags and other pieces of any length and in any order, each well-formed by itself, every name, list of attributes and name of an attribute, every text from the '<' or '>' on, every cursor in the name, all data, participants and settings, both case modes",
  "The attribute being typed is itself one of the attributes of the tag, and must not be taken out of the proposals with the others; the tag is not finished, and the text behind it is anything.",
  SV + "html_completion.rs::do_complete", SV + "html_completion.rs::CompletionContext::collect_attribute_name_suggestions", SC + "::scan", DO + "::find_node_before")

if __name__ == "__main__":
    out = os.path.join(os.path.dirname(os.path.abspath(__file__)), "..", "properties.jsonl")
    with open(out, "w") as f:
        for x in P:
            f.write(json.dumps(x, ensure_ascii=False) + "\n")
    print(len(P))
