{"id": "C01", "title": "Scanning always reaches the end of the text", "statement": "Calling Scanner::scan repeatedly returns EOS after at most 2*(len-offset)+1 calls that did not panic, whatever the text, start offset, start state and modes.", "quantifier": "every text, initial offset, initial state, pseudo-close mode and case mode", "why_tests_cant": "A non-advancing state combination only shows up on particular malformed texts; tests sample finitely many.", "anchors": ["src/parser/html_scanner.rs::Scanner::scan", "src/parser/html_scanner.rs::Scanner::internal_scan"]}
{"id": "C02", "title": "Tokens tile the text", "statement": "The tokens returned before EOS are contiguous: the first starts at the initial offset, each next token starts where the previous ended, and the last ends at the end of the text; so concatenating the token texts gives back the text.", "quantifier": "every text, initial offset within it, initial state and modes", "why_tests_cant": "A gap or overlap needs one specific state/character pair; the property is about all of them.", "anchors": ["src/parser/html_scanner.rs::Scanner::scan", "src/parser/html_scanner.rs::Scanner::get_token_offset", "src/parser/html_scanner.rs::Scanner::get_token_end"]}
{"id": "C03", "title": "EOS is returned only at the end and stays", "statement": "scan returns EOS exactly when the position has reached the end of the text, and every later call returns EOS again with the same offsets.", "quantifier": "every scanner state reachable from any start", "why_tests_cant": "Premature EOS on some malformed input would silently drop the rest of a document.", "anchors": ["src/parser/html_scanner.rs::Scanner::scan"]}
{"id": "C04", "title": "Empty tokens are only pseudo-close tags", "statement": "A token of length zero is returned only in pseudo-close mode, only as StartTagClose or EndTagClose, only directly before a '<'; the 'has not advanced' recovery of scan never runs.", "quantifier": "every text, start and mode", "why_tests_cant": "The recovery path is a defensive branch no test can prove dead.", "anchors": ["src/parser/html_scanner.rs::Scanner::scan"]}
{"id": "C05", "title": "Panics of the scanner: exactly two causes", "statement": "On a valid UTF-8 text scanned from the start, scan panics only (a) when a white-space or C1 control character outside ASCII stands inside a tag after white space, or (b) when a text ends inside the quoted value of a type attribute with a non-ASCII last character. In particular it never panics on a text without such characters whose last character is ASCII. Both causes are real.", "quantifier": "every valid UTF-8 text, both modes", "why_tests_cant": "Needs every byte offset reached to be a character boundary, for all texts.", "anchors": ["src/parser/html_scanner.rs::Scanner::internal_scan", "src/parser/html_scanner.rs::REG_NON_ELEMENT_NAME"]}
{"id": "C06", "title": "Token texts have their lexical shape", "statement": "Fixed tokens have fixed texts (StartTagOpen is \"<\", EndTagOpen \"</\", DelimiterAssign \"=\", StartCommentTag \"<!--\", EndCommentTag \"-->\", StartTagSelfClose \"/>\", non-empty StartTagClose/EndTagClose and EndDoctypeTag \">\"); Content contains no '<'; Whitespace is only white space; names contain none of the characters that delimit them.", "quantifier": "every token of every scan", "why_tests_cant": "A token kind is produced from several states; all combinations have to agree.", "anchors": ["src/parser/html_scanner.rs::Scanner::internal_scan"]}
{"id": "C07", "title": "Script content ends at the matching close tag", "statement": "Inside a script element without type attribute, the Script token extends exactly to the first </script that the browser rule (<!-- ... <script ... </script ... --> nesting) does not skip, or to the end of the text; no markup inside is tokenised.", "quantifier": "every text that follows a script start tag", "why_tests_cant": "The double-escape automaton has unboundedly many paths.", "anchors": ["src/parser/html_scanner.rs::ScannerState::WithinScriptContent", "src/parser/html_scanner.rs::REG_SCRIPT_COMMENT"]}
{"id": "C08", "title": "Style content ends at the first </style", "statement": "Inside a style element the Styles token extends to the first \"</style\" or the end of the text.", "quantifier": "every text that follows a style start tag", "why_tests_cant": "Quantifies over every content.", "anchors": ["src/parser/html_scanner.rs::ScannerState::WithinStyleContent", "src/parser/html_scanner.rs::REG_STYLE"]}
{"id": "C09", "title": "Comments and doctypes are opaque", "statement": "After <!-- everything up to the first \"-->\" (or the end) is one Comment token, and after <!doctype everything up to the first '>' is one Doctype token; no other token starts inside.", "quantifier": "every text and comment content", "why_tests_cant": "Quantifies over every content, including tags and script inside comments.", "anchors": ["src/parser/html_scanner.rs::ScannerState::WithinComment", "src/parser/html_scanner.rs::ScannerState::WithinDoctype"]}
{"id": "C10", "title": "Scanning can be resumed", "statement": "Starting a fresh scanner at the end of any token after which the scanner is back in plain content gives exactly the remaining tokens of the original scan.", "quantifier": "every text and every such token boundary", "why_tests_cant": "Hidden state (last tag, last attribute, space flag) leaking across tokens is invisible to tests of single documents; selection ranges and completion rely on resuming.", "anchors": ["src/parser/html_scanner.rs::Scanner::new", "src/parser/html_scanner.rs::Scanner::scan"]}
{"id": "C11", "title": "Parsing is total", "statement": "parse_html_document returns a document for every text on which the scanner does not panic: none of its unwraps or map lookups fails and its loops terminate.", "quantifier": "every text, void element list and case mode", "why_tests_cant": "Each unwrap is justified by an invariant relating scanner state and parser stack over the whole history.", "anchors": ["src/parser/html_parse.rs::parse_html_document"]}
{"id": "C12", "title": "Node spans are well formed", "statement": "Every node satisfies start < end <= text length, children lie inside their parent in source order without overlap, and start < start_tag_end <= end_tag_start < end whenever those are present, with all children between start_tag_end and end_tag_start.", "quantifier": "every node of every parsed document", "why_tests_cant": "Malformed nesting has unboundedly many shapes; all services index by these spans.", "anchors": ["src/parser/html_parse.rs::parse_html_document", "src/parser/html_document.rs::Node"]}
{"id": "C13", "title": "One node per opening bracket, in source order", "statement": "The start offsets of the nodes in document order are exactly the offsets of the StartTagOpen tokens of the text, in order.", "quantifier": "every text", "why_tests_cant": "A lost or duplicated node on some malformed text would not be seen by examples.", "anchors": ["src/parser/html_parse.rs::parse_html_document"]}
{"id": "C14", "title": "Tag names are the source text", "statement": "If a node has a tag, the text following its '<' (after optional white space) is that tag; without white space it is the text at start+1. A node without a tag has no name after its '<'.", "quantifier": "every node of every parsed document", "why_tests_cant": "Rename, highlight and linked editing compute ranges from this assumption.", "anchors": ["src/parser/html_parse.rs::parse_html_document", "src/parser/html_document.rs::Node"]}
{"id": "C15", "title": "End tags are the source text", "statement": "If a node has end_tag_start = e then the text at e starts with \"</\", the node is closed, and the name after it equals the tag up to case (exactly in case-sensitive mode).", "quantifier": "every node of every parsed document", "why_tests_cant": "The end tag may be arbitrarily far away and separated by malformed markup.", "anchors": ["src/parser/html_parse.rs::parse_html_document"]}
{"id": "C16", "title": "An end tag closes the nearest open element of its name", "statement": "Processing an end tag closes the innermost open element whose name matches and implicitly ends everything opened inside it at the start of the end tag; if no open element matches the end tag has no effect on the tree.", "quantifier": "every stack of open elements and every end tag", "why_tests_cant": "Stack depth is unbounded.", "anchors": ["src/parser/html_parse.rs::parse_html_document", "src/parser/html_document.rs::Node::is_same_tag"]}
{"id": "C17", "title": "Closed flag is exact", "statement": "A node is closed iff it is self-closed with '/>', is a void element with a '>' or has a matching end tag; a closed node without end tag ends at its start_tag_end and has no children; a node not closed has no end_tag_start.", "quantifier": "every node of every parsed document", "why_tests_cant": "Several code paths set the flag and later paths reset it.", "anchors": ["src/parser/html_parse.rs::parse_html_document"]}
{"id": "C18", "title": "Attributes are those written", "statement": "The attribute map of a node has an entry exactly for the names appearing as attribute-name tokens in its start tag; the entry carries the offset and value of the last occurrence: no value without '=', the empty value for '=' with nothing after it, otherwise the literal value token.", "quantifier": "every start tag", "why_tests_cant": "Duplicate names, missing values and malformed tags combine without bound.", "anchors": ["src/parser/html_parse.rs::parse_html_document", "src/parser/html_document.rs::NodeAttribute"]}
{"id": "C19", "title": "Attribute order is source order", "statement": "attribute_names_by_order lists every attribute once, by increasing source offset, and the result does not depend on the hash map's iteration order.", "quantifier": "every node and every iteration order of the map", "why_tests_cant": "Hash iteration order is randomised per process.", "anchors": ["src/parser/html_document.rs::Node::attribute_names_by_order"]}
{"id": "C20", "title": "Void elements never have content", "statement": "A node whose tag is in the void list, written in the list's case, never has children nor an end tag; in case-insensitive mode an upper-case void tag is not recognised.", "quantifier": "every node of every parsed document", "why_tests_cant": "Universal over all documents.", "anchors": ["src/parser/html_parse.rs::parse_html_document", "src/language_facts/data_manager.rs::HTMLDataManager::is_void_element"]}
{"id": "C21", "title": "Well-formed documents parse to their tree", "statement": "Rendering any well-formed element tree (names, quoted attributes, nested children, text) and parsing the result yields a document with exactly that tree, all elements closed and the spans being those of the rendering.", "quantifier": "every well-formed tree", "why_tests_cant": "Round trip over all trees of any depth and width.", "anchors": ["src/parser/html_parse.rs::parse_html_document"]}
{"id": "C22", "title": "Parser pointers stay valid", "statement": "The raw pointers kept in the parser's parent list always designate the current nodes of the tree under construction: every dereference is of a live node although vectors of children are reallocated.", "quantifier": "every token sequence", "why_tests_cant": "Undefined behaviour from stale pointers after vector growth need not show up in a test run.", "anchors": ["src/parser/html_parse.rs::parse_html_document"]}
{"id": "C23", "title": "find_node_at returns the deepest node containing the offset", "statement": "find_node_at(o) is the unique deepest node with start <= o < end, or none if no node contains o; the parent list is the chain of its ancestors, outermost first.", "quantifier": "every parsed document and offset", "why_tests_cant": "Needs the search by start offsets to agree with containment on all trees.", "anchors": ["src/parser/html_document.rs::HTMLDocument::find_node_at", "src/parser/html_document.rs::Node::find_node_at"]}
{"id": "C24", "title": "find_node_before returns the last node opened before the offset that is still relevant", "statement": "find_node_before(o) returns a node starting before o; it returns none iff no node starts before o; the result is an ancestor-or-self of the last node (in document order) starting before o, and its parent list is its ancestor chain.", "quantifier": "every parsed document and offset", "why_tests_cant": "The search mixes start and end comparisons over arbitrary trees.", "anchors": ["src/parser/html_document.rs::HTMLDocument::find_node_before", "src/parser/html_document.rs::Node::find_node_before"]}
{"id": "C25", "title": "find_root_at returns the first root ending at or after the offset", "statement": "find_root_at(o) is the first root with o <= end; every earlier root ends before o; none iff every root ends before o.", "quantifier": "every parsed document and offset", "why_tests_cant": "Universal over documents.", "anchors": ["src/parser/html_document.rs::HTMLDocument::find_root_at"]}
{"id": "C26", "title": "find_token_type_in_node classifies offsets and panics only on incomplete tags", "statement": "For a node with tag and complete start tag every offset outside the node is Unknown, start is StartTagOpen, the name bytes are StartTag, offsets between start_tag_end and end_tag_start are Content; the function panics iff the offset is inside a node without tag, or past the name of a node whose start tag is incomplete.", "quantifier": "every node of every parsed document and every offset", "why_tests_cant": "The unwraps depend on document shape.", "anchors": ["src/parser/html_document.rs::Node::find_token_type_in_node"]}
{"id": "C27", "title": "Positions and offsets convert back and forth", "statement": "position_at is monotone and offset_at inverts it on every character boundary of the text.", "quantifier": "every valid UTF-8 text and offset", "why_tests_cant": "Involves all line-ending and surrogate-pair combinations.", "anchors": ["Cargo.toml::lsp-textdocument", "src/services/html_rename.rs"]}
{"id": "C28", "title": "Rename edits exactly the tag names", "statement": "do_rename returns edits only when the cursor is on the start or end tag name of the node; the edits are exactly the name in the start tag and, if there is an end tag, the name in the end tag, each replaced by the new name; in a document written without white space after '<' and '</' the replaced texts are the names.", "quantifier": "every document, cursor position and new name", "why_tests_cant": "Ranges are recomputed from offsets by arithmetic that must match the source on all documents.", "anchors": ["src/services/html_rename.rs::do_rename"]}
{"id": "C29", "title": "Renaming keeps the document structure", "statement": "Applying the rename edits to a rendered well-formed document gives the rendering of the same tree with that element's name replaced, and parsing it gives that tree.", "quantifier": "every well-formed tree, element and new name", "why_tests_cant": "End-to-end statement over parser, search and edits.", "anchors": ["src/services/html_rename.rs::do_rename", "src/parser/html_parse.rs::parse_html_document"]}
{"id": "C30", "title": "Linked editing ranges are the two names", "statement": "find_linked_editing_ranges returns none or exactly the two name ranges of the node under the cursor, and only when the cursor is within one of them.", "quantifier": "every document and cursor position", "why_tests_cant": "Offsets at the boundary of names on all documents.", "anchors": ["src/services/html_linked_editing.rs::find_linked_editing_ranges"]}
{"id": "C31", "title": "Matching tag position is an involution", "statement": "If find_matching_tag_position maps p to q then it maps q back to p, for cursors inside the names of a node with complete tags.", "quantifier": "every document and cursor", "why_tests_cant": "Needs the two computed names to be symmetric for every node.", "anchors": ["src/services/html_matching_tag_position.rs::find_matching_tag_position"]}
{"id": "C32", "title": "Highlights are the name ranges", "statement": "find_document_highlights returns at most two read highlights, which are the start and end tag name ranges of the node under the cursor, and is non-empty only when the cursor touches one of them.", "quantifier": "every document and cursor", "why_tests_cant": "Quantifies over all documents.", "anchors": ["src/services/html_highlight.rs::find_document_highlights"]}
{"id": "C33", "title": "Document symbols mirror the tree", "statement": "find_document_symbols2 returns one symbol per node, nested exactly like the nodes; find_document_symbols lists the same nodes in document order, each with its parent's name as container.", "quantifier": "every parsed document", "why_tests_cant": "Universal over trees.", "anchors": ["src/services/html_symbols.rs::find_document_symbols", "src/services/html_symbols.rs::find_document_symbols2"]}
{"id": "C34", "title": "Folding ranges are proper", "statement": "Every folding range returned satisfies start_line < end_line with lines inside the document, and comes from the document: from a start tag and a later tag closing that name, from the two comments of a region, or from one comment.", "quantifier": "every document and limit", "why_tests_cant": "Universal over documents.", "anchors": ["src/services/html_folding.rs::get_folding_ranges"]}
{"id": "C35", "title": "Folding range limit", "statement": "With a range limit the ranges returned are ranges returned without it; when the ranges are well nested (less than 30 deep) exactly the limit is returned and every range around a kept one is kept. For other ranges the number returned may exceed the limit, the answer may be empty, and the computation may panic (findings).", "quantifier": "every document and limit", "why_tests_cant": "Level counting over arbitrary nesting.", "anchors": ["src/services/html_folding.rs::limit_ranges"]}
{"id": "C36", "title": "Selection ranges nest and contain the cursor", "statement": "The chain returned for a position is ordered by inclusion from inner to outer, and every range contains the position's offset.", "quantifier": "every document and position", "why_tests_cant": "Ranges come from three different sources which must be compatible on all documents.", "anchors": ["src/services/html_selection_range.rs::get_selection_ranges"]}
{"id": "C37", "title": "Document links lie on attribute values", "statement": "Every document link range is the value of a path attribute token (without its quotes), in document order and without overlap; javascript: values and values containing line breaks give no link; every other value of a path attribute that refers somewhere has its link, an anchor leads to the last element with that id, a file address is kept without its query and fragment, other addresses are kept as they are, and a base element with a reference redirects the relative references behind it.", "quantifier": "every document", "why_tests_cant": "Universal over documents and attribute values.", "anchors": ["src/services/html_links.rs::find_document_links"]}
{"id": "C38", "title": "Quote stripping", "statement": "Stripping quotes from an attribute value removes exactly one matching pair; on a value that is a single quote character it panics (finding).", "quantifier": "every attribute value", "why_tests_cant": "Corner cases of lengths 0 and 1.", "anchors": ["src/services/html_links.rs::normalize_ref"]}
{"id": "C39", "title": "Reference resolution", "statement": "For a relative reference that does not climb above the root, DefaultDocumentContext::resolve_reference on a base with a path returns the base's scheme and authority followed by the normalised path; an absolute reference is returned unchanged; the cases in which it panics or leaves the base's authority are characterised (climbing above the root is a finding).", "quantifier": "every base and reference", "why_tests_cant": "Arbitrary sequences of path segments.", "anchors": ["src/html_language_types.rs::DefaultDocumentContext::resolve_reference"]}
{"id": "C40", "title": "Tag completion closes the right element", "statement": "do_tag_complete after '>' returns the closing tag of the element whose start tag ends at the cursor, if and only if that element has a name, is not void and its end tag does not stand at the cursor; after '</' it returns the name of the innermost element open there (other than one this end tag already closes), with the '>' unless it is there; everywhere else nothing. This holds when no earlier tag is left unfinished; the exceptions are recorded as findings.", "quantifier": "every document and cursor", "why_tests_cant": "Depends on global parser state.", "anchors": ["src/services/html_completion.rs::do_tag_complete"]}
{"id": "C41", "title": "Quote completion", "statement": "do_quote_complete returns a snippet exactly when the cursor stands directly after an attribute name and its '=' with no value following, and the snippet has the configured quotes. This holds when no earlier tag is left unfinished (a finding otherwise).", "quantifier": "every document, cursor and setting", "why_tests_cant": "Universal over documents.", "anchors": ["src/services/html_completion.rs::do_quote_complete"]}
{"id": "C42", "title": "Completion never proposes an attribute twice", "statement": "Attribute name completion proposes no label twice and no attribute already present on the element, other than the one under the cursor.", "quantifier": "every document, cursor and data provider list", "why_tests_cant": "Providers are user supplied.", "anchors": ["src/services/html_completion.rs::CompletionContext::collect_attribute_name_suggestions"]}
{"id": "C43", "title": "Data manager lookups", "statement": "get_void_elements returns exactly the void tags of the providers applicable to the language, sorted; is_void_element answers membership; set_data_providers replaces the custom providers; is_path_attribute is true exactly for the documented tag/attribute pairs.", "quantifier": "every provider list, tag and attribute", "why_tests_cant": "Binary search is only right on sorted lists; provider lists are user supplied.", "anchors": ["src/language_facts/data_manager.rs::HTMLDataManager"]}
{"id": "C44", "title": "Markdown is only sent to clients that support it", "statement": "Hover contents and documentation never contain Markdown when the client does not support it.", "quantifier": "every provider content and client capability", "why_tests_cant": "Universal over contents.", "anchors": ["src/services/html_hover.rs", "src/language_facts/data_provider.rs::generate_documentation"]}
{"id": "C45", "title": "Hover ranges contain the cursor", "statement": "A hover range reported for a tag, attribute or value contains the cursor offset and covers the token hovered.", "quantifier": "every document and cursor", "why_tests_cant": "Universal over documents.", "anchors": ["src/services/html_hover.rs::HTMLHover::do_hover"]}
{"id": "C46", "title": "Formatting is one edit at the selection", "statement": "Formatting gives exactly one text edit. For a whole document it covers the document; for a selection it goes from the start of the selection, extended over the blanks before it, to its end, extended over the blanks that end its line, so that apart from blanks it replaces what was selected, unless the selection starts a line. A selection that starts inside a tag is left as it is.", "quantifier": "every document, selection and option", "why_tests_cant": "Universal over documents and selections.", "anchors": ["src/services/html_formatter.rs::format", "src/beautify/beautify_html.rs::html_beautify"]}
{"id": "C47", "title": "Folding ranges nest", "statement": "Of two folding ranges of elements one lies inside the other or they share no line; a comment or region range may share only its closing line with another range.", "quantifier": "every document", "why_tests_cant": "Universal over documents, tags that overlap and unclosed elements included.", "anchors": ["src/services/html_folding.rs::get_folding_ranges"]}
{"id": "C48", "title": "Every multi-line element and comment folds", "statement": "Every element with balanced content that is closed by an end tag of the same spelling three or more lines further begins a folding range on its line, and every multi-line comment that is no region mark is a folding range.", "quantifier": "every document", "why_tests_cant": "Universal over documents and nesting.", "anchors": ["src/services/html_folding.rs::get_folding_ranges"]}
{"id": "C49", "title": "Completion edits stay at the cursor", "statement": "Every text edit that completion itself proposes replaces a range of the document that contains the cursor; items of a participant are passed on unchanged.", "quantifier": "every document, cursor, provider, participant and setting", "why_tests_cant": "Universal over documents and cursors; the range is computed on nine different paths.", "anchors": ["src/services/html_completion.rs::HTMLCompletion::do_complete"]}
{"id": "C50", "title": "Tag names proposed", "statement": "With the cursor in the name of a start tag, completion always answers, with exactly the tags of the applicable and enabled providers, each replacing the whole name.", "quantifier": "every document, cursor, provider and setting", "why_tests_cant": "Universal over documents.", "anchors": ["src/services/html_completion.rs::CompletionContext::collect_open_tag_suggestions"]}
{"id": "C51", "title": "Attribute values proposed", "statement": "With the cursor in an attribute value or right behind the equals sign, the values proposed are exactly those the applicable and enabled providers declare for that attribute on the tag of the element, after the answers of the participants; a value that is not written in quotes is put in quotes.", "quantifier": "every document, cursor, provider, participant and setting", "why_tests_cant": "The attribute and the element are found by scanning the start tag up to the cursor.", "anchors": ["src/services/html_completion.rs::CompletionContext::collect_attribute_value_suggestions"]}
{"id": "C52", "title": "End tag proposed", "statement": "Right behind '</' the one proposal is the end tag of the innermost named element still open there, with '>' added unless one follows; if no element is open, all tags of the applicable and enabled providers are proposed.", "quantifier": "every document whose tags before the cursor are finished, cursor, provider and setting", "why_tests_cant": "Universal over documents and nesting.", "anchors": ["src/services/html_completion.rs::CompletionContext::collect_close_tag_suggestions"]}
{"id": "C53", "title": "Completion answers", "statement": "Completion terminates for every document and position, and for every document of ASCII characters and every position whose column lies in its line it gives an answer.", "quantifier": "every document and position", "why_tests_cant": "Byte slices, unwraps and subtractions on every path.", "anchors": ["src/services/html_completion.rs::HTMLCompletion::do_complete"]}
{"id": "C54", "title": "Formatting keeps the elements", "statement": "The new text has, apart from white space, exactly the characters of the elements of the formatted text in document order: names, attributes with their values in order, text content and end tags.", "quantifier": "every document, selection and option", "why_tests_cant": "Universal over documents, nesting and options.", "anchors": ["src/services/html_formatter.rs::format", "src/beautify/beautify_html.rs::html_beautify"]}
{"id": "C55", "title": "Formatting answers", "statement": "Formatting a document gives an answer unless the parser fails or an element that would be written has no name, and so does formatting a selection that starts neither at the start of the text nor on its first line, with a positive tab size.", "quantifier": "every document, selection and option", "why_tests_cant": "Slices, unwraps and divisions on every path.", "anchors": ["src/services/html_formatter.rs::format", "src/beautify/beautify_html.rs::html_beautify"]}
{"id": "C56", "title": "Formatting a tidy document changes white space only", "statement": "If every element is closed by its own end tag or by '/>', and there is only white space between the top-level elements, the formatted document and the original differ in white space only.", "quantifier": "every tidy document and option", "why_tests_cant": "Universal over documents, nesting and options.", "anchors": ["src/services/html_formatter.rs::format", "src/beautify/beautify_html.rs::html_beautify"]}
{"id": "C57", "title": "Layout of start tags", "statement": "Every element that is written has its start tag indented by its depth, on one line if that line is no longer than the line length, and otherwise with each attribute on a line of its own; below the top level it starts on a new line.", "quantifier": "every document, element and option", "why_tests_cant": "Universal over documents, depth and attributes.", "anchors": ["src/services/html_formatter.rs::format", "src/beautify/beautify_html.rs::html_beautify"]}
{"id": "C58", "title": "Requests are answered in any script", "statement": "Completion gives an answer at every cursor of every document that can be parsed, except in an attribute value that begins with a character that is not ASCII or has one in the word at the cursor between its quotes, where it always fails. Hover, tag completion, quote completion, folding and selection ranges give an answer at every cursor of every document without non-ASCII white space or C1 control characters that ends with an ASCII character, selection ranges except in an element ended by an end tag that has a non-ASCII name and no '>'.", "quantifier": "every document of Unicode characters and every cursor", "why_tests_cant": "Byte slices off character boundaries, unwraps and subtractions on every path, for every mix of scripts.", "anchors": ["src/services/html_completion.rs::HTMLCompletion", "src/services/html_hover.rs::HTMLHover", "src/services/html_selection_range.rs::get_selection_ranges", "src/services/html_folding.rs::get_folding_ranges"]}
{"id": "C59", "title": "An outdated tree is survived", "statement": "The services take the text and a tree from the caller and nothing makes them agree. On ASCII text every request (completion, hover, tag and quote completion, selection ranges, highlights, rename, linked editing, matching tag) gives an answer with the tree of any other text. On other text without non-ASCII white space or C1 controls that ends in ASCII, highlights, hover, tag and quote completion give an answer with any tree at all, and completion with any tree whose elements begin between characters of the text, when the word at the cursor is ASCII.", "quantifier": "every text, every tree or tree of another text, every cursor", "why_tests_cant": "Histories of edits and requests in any order: every pair of a text and a tree.", "anchors": ["src/services/html_completion.rs::HTMLCompletion", "src/services/html_hover.rs::HTMLHover", "src/services/html_selection_range.rs::get_selection_ranges", "src/services/html_highlight.rs::find_document_highlights", "src/services/html_rename.rs::do_rename", "src/parser/html_document.rs::HTMLDocument"]}
{"id": "C60", "title": "A session survives and remembers only what it was told last", "statement": "A service is created, a document is opened, and then documents, parses, participants, data providers and requests come in any order and number. If the documents are ASCII, every request gets a reply of its kind: completion, hover, tag and quote completion, highlights, symbols, folding without limit, selection ranges, rename, matching tag, linked editing, links in documents that meet the conditions of C61, and formatting of whole documents that have no nameless element. Whatever happened before, a reply is the one of a service made anew that was told only the participants and providers told last, for the document as it is and the tree of the last parse. Requests change nothing. The case option is the one of every part of the service at all times.", "quantifier": "every history of edits, parses, reconfigurations and requests", "why_tests_cant": "Histories: every interleaving of calls.", "anchors": ["src/html_language_service.rs::HTMLLanguageService", "src/language_facts/data_manager.rs::HTMLDataManager::set_data_providers"]}
{"id": "C61", "title": "Finding links gives an answer", "statement": "With the resolver the crate comes with and a document whose address is a URI with a scheme, finding links gives an answer on every text without non-ASCII white space or C1 control characters that ends with an ASCII character, if no attribute value is a single quote, if a link or address that starts with 'file:' goes on with a slash, and if a link behind a base tag resolves to a URI with a scheme. With another resolver the same holds if it answers for the address and for what links behind a base tag resolve to.", "quantifier": "every document, address, resolver, and URI parser that cuts queries and fragments as RFC 3986 does", "why_tests_cant": "Every unwrap of a parsed and reassembled URI, for every link of every document.", "anchors": ["src/services/html_links.rs::find_document_links", "src/services/html_links.rs::validate_ref", "src/html_language_types.rs::DefaultDocumentContext"]}
{"id": "C62", "title": "Patterns mean what they say", "statement": "Doctypes, element names, attribute names, unquoted values, ends of script and style content, region comments, links, schemes, javascript links, white space and words are recognised as the leftmost match of the regular expression written in the source, in the order a backtracking search tries them, for every text of Unicode characters.", "quantifier": "every UTF-8 text and every assignment of word characters and digits beyond ASCII (digits are word characters, word characters are not white space)", "why_tests_cant": "Universal over texts; tests only meet a few.", "anchors": ["src/parser/html_scanner.rs::REG_SCRIPT_COMMENT", "src/services/html_links.rs::REG_REF", "src/services/html_folding.rs::REG_REGION", "src/services/html_formatter.rs::format", "src/beautify/beautify_html.rs::beautify_text", "src/services/html_completion.rs::REG_WHITE_SPACE", "src/services/html_hover.rs::REG_QUOTE", "src/utils/strings.rs::is_letter_or_digit"]}
{"id": "C63", "title": "Formatting keeps the document", "statement": "Formatting a well-formed document (elements properly nested and closed, comments, doctypes, script and style elements, void and self-closing elements, attributes with or without quotes) gives one edit whose text is again well-formed and parses to the same tree: the same elements in the same nesting, each closed and ended as before, with the same attributes and values in the same order. Inside the elements every comment, doctype and text keeps its words, in the same place of the tree; what is outside of all elements is dropped.", "quantifier": "every well-formed document, all format options, both case modes", "why_tests_cant": "Universal over documents and options: nothing the formatter writes may be read differently from what it was made of.", "anchors": ["src/services/html_formatter.rs::format", "src/beautify/beautify_html.rs::html_beautify", "src/parser/html_parse.rs::parse_html_document"]}
{"id": "C64", "title": "Formatting settles", "statement": "Formatting a well-formed document again and again changes it at most three times: the fourth time it stays as it is. Twice is enough when every element that contains elements goes over several lines, once when besides no text shares its line with an element.", "quantifier": "every well-formed document, all format options, both case modes", "why_tests_cant": "A statement about all iterations on all documents; idempotence on examples says nothing about others.", "anchors": ["src/services/html_formatter.rs::format", "src/beautify/beautify_html.rs::beautify_node", "src/beautify/beautify_html.rs::beautify_text"]}
{"id": "C65", "title": "Earlier markup does not change how the rest is read", "statement": "A well-formed document put in front of any text, broken or not, leaves the reading of that text alone: the tree of the whole is the tree of the well-formed part followed by the tree the text has on its own, every offset moved by the length of what is in front. So two documents that begin well-formed and end in the same text have the same tree for that text but for the places.", "quantifier": "every well-formed beginning, every UTF-8 text behind it, both case modes, every set of void elements", "why_tests_cant": "Universal over beginnings and rests: nothing remembered by scanner or parser from earlier tags may matter.", "anchors": ["src/parser/html_scanner.rs::Scanner::scan", "src/parser/html_parse.rs::parse_html_document"]}
{"id": "C66", "title": "Typed tags complete themselves", "statement": "When the '>' of a start tag was just typed inside any nesting of elements whose end tags are still missing, the end tag with the name of that element is proposed, whatever text follows, unless what follows is already an end tag of that name, for which nothing is proposed. When '</' was just typed after the content of an element, the name of that element and '>' are proposed, whatever follows, without the '>' if one is there. If the document is well-formed but for that one missing end tag, inserting what is proposed gives the well-formed document.", "quantifier": "every sequence of enclosing start tags, every well-formed content before and between them, every UTF-8 text behind the cursor that can be parsed, both case modes, every set of void elements", "why_tests_cant": "Universal over contexts and over the unfinished rest of the document, which is the normal state while typing.", "anchors": ["src/services/html_completion.rs::do_tag_complete", "src/parser/html_parse.rs::parse_html_document"]}
{"id": "C67", "title": "Lines above do not change the answers", "statement": "Put well-formed markup above a document, so that the document's places move down by m lines. Then every question about a place of the document is answered as before, with all places in the answer moved down by m lines: rename, linked editing, matching tag, highlights and symbols (those of the added markup come first) for any document below, broken or not; hover if the added markup consists of whole lines; quote and tag completion behind the start of the first element of the document; completion there too if the added markup consists of whole lines without data- attributes and the place is not in the first line. For line and UTF-16 column positions, adding whole lines moves places down by the number of these lines.", "quantifier": "every well-formed markup above, every UTF-8 document below that can be parsed, every place, data provider and participant that answers likewise further down, both case modes", "why_tests_cant": "Universal over what stands above, what stands below, and where the cursor is.", "anchors": ["src/services/html_rename.rs::do_rename", "src/services/html_linked_editing.rs::find_linked_editing_ranges", "src/services/html_highlight.rs::find_document_highlights", "src/services/html_hover.rs::do_hover", "src/services/html_completion.rs::do_complete", "src/services/html_completion.rs::do_quote_complete", "src/services/html_completion.rs::do_tag_complete"]}
{"id": "C68", "title": "Lines of formatted documents", "statement": "Formatting a document gives lines with no more blank lines in a row than the options allow: none if line feeds are not preserved, at most the maximum otherwise. Blank lines in front of, between and behind the children of an element are kept up to that number, and the words of the other lines there are written with one space between them, one level deeper than the element. Every element with an end tag is written as its start tag, text behind that on the same line, further lines that are empty or indented at least one level deeper than the element, and the end tag: directly behind them if the element is kept short, on a line of its own with the indentation of the element if not. An element is kept short if its content has no line feed, its start tag fits on a line and the whole is shorter than the line length. An element without children is then on one line, and otherwise has no text behind its start tag.", "quantifier": "every document, broken or not, whose written attribute values have no line feed, all format options but attributes wrapped with tabs, both case modes, every element at every depth", "why_tests_cant": "Universal over documents, options and elements; every line of the output counts.", "anchors": ["src/services/html_formatter.rs::format", "src/beautify/beautify_html.rs::beautify_node", "src/beautify/beautify_html.rs::beautify_text", "src/beautify/beautify_html.rs::node_is_wrap"]}
{"id": "C69", "title": "What completion proposes outside of tag names and values", "statement": "Right behind a '<' completion proposes the doctype on the first line of the document and nowhere else, every tag of the data in use, and the end tag of the innermost element around that is not closed before the cursor, if there is one; the proposals replace the name that follows, and the end tag also corrects the indentation when only blanks precede it on its line. In the white space behind '<' the same, without the doctype. In an end tag the innermost element still open is proposed in place of what is there, and the end tags of all known tags if none is open. In text the named character references are proposed exactly if the cursor is behind '&' and letters and digits, replacing from the '&' to the cursor, besides what the participants add. Right behind the '>' of a start tag the matching end tag is proposed behind the cursor, unless the element is void or the settings forbid it. In comments, doctypes, scripts, style sheets and behind other closing brackets nothing is proposed. Attribute names are written with '=' and a place for the value in the quotes of the settings, without if the attribute takes none or a '=' follows.", "quantifier": "every document, broken or not, that can be parsed; every cursor position of the kinds named, every set of data providers, participants and settings, both case modes", "why_tests_cant": "Universal over documents and cursor positions: each proposal and each edit is fixed, and so is the absence of any other.", "anchors": ["src/services/html_completion.rs::do_complete", "src/services/html_completion.rs::collect_open_tag_suggestions", "src/services/html_completion.rs::collect_close_tag_suggestions", "src/services/html_completion.rs::collect_character_entity_proposals", "src/services/html_completion.rs::collect_auto_close_tag_suggestion", "src/services/html_completion.rs::collect_attribute_name_suggestions"]}
{"id": "C70", "title": "What stands below does not change the answers", "statement": "Put any text, broken or not, below a well-formed document. Then every question about a place of the well-formed part, in front of its end, is answered exactly as it was without the text below: rename, linked editing, matching tag, highlights, hover, quote and tag completion, and completion if the text below has no data- attributes. The symbols of the well-formed part come first, unchanged, followed by those of the text below. The text below must not go on with text that the well-formed part ends with, and for rename, linked editing and matching tag the two names of an element must be equally long (they may differ in case).", "quantifier": "every well-formed document, every UTF-8 text below it that can be parsed, every place of the document, all data providers, participants and settings, both case modes", "why_tests_cant": "Universal over what stands below, which is what changes while a document is written from top to bottom.", "anchors": ["src/services/html_rename.rs::do_rename", "src/services/html_linked_editing.rs::find_linked_editing_ranges", "src/services/html_matching_tag_position.rs::find_matching_tag_position", "src/services/html_highlight.rs::find_document_highlights", "src/services/html_symbols.rs::find_document_symbols", "src/services/html_hover.rs::do_hover", "src/services/html_completion.rs::do_complete", "src/services/html_completion.rs::do_quote_complete", "src/services/html_completion.rs::do_tag_complete"]}
{"id": "C71", "title": "Accepting a proposal gives the document it promises", "statement": "In a well-formed document the client accepts a proposal: it puts the proposal's text, without the tab stops of a snippet, in the place of the range that comes with it. Accepting an attribute name gives the document in which the attribute at the cursor is named so, with the value it had, or an empty one in quotes if it had none; in the white space of a tag one more attribute. Accepting an attribute value replaces the value, in quotes if it had none, or the one word of a quoted value at the cursor. Accepting the end tag behind the '>' of a start tag gives the well-formed document if only that end tag was missing. Accepting a character reference puts it in the place of the '&' and the letters behind it. All else stays as it was, the result is well-formed again, and its tree is that of the changed document.", "quantifier": "every well-formed document, every element and attribute at every depth, every cursor position of the kinds named, all data providers whose names and values are plain, all settings (with quotes for attributes without a value), both case modes", "why_tests_cant": "Universal over documents, cursors and data: what the user gets is the edit applied to the text and read again, and tests only look at the edit.", "anchors": ["src/services/html_completion.rs::do_complete", "src/services/html_completion.rs::collect_attribute_name_suggestions", "src/services/html_completion.rs::collect_attribute_value_suggestions", "src/services/html_completion.rs::collect_auto_close_tag_suggestion", "src/services/html_completion.rs::collect_character_entity_proposals", "src/parser/html_parse.rs::parse_html_document"]}
{"id": "C72", "title": "Custom data files", "statement": "A text is read as custom data exactly if it is a JSON text (RFC 8259, blanks around it allowed) whose value has the documented shape: an object with a version number and optionally tags, global attributes and value sets, each member at most once and in any order, other members ignored, null the same as absent for optional members; tags must have a name and a list of attributes, value sets a name and a list of values, references a name and a URL, and descriptions are a string or an object with kind and value. The data got is the data described. Custom data written as JSON and read again is the same, whatever bytes its strings contain, if its version is a finite number. One tag without attributes and the whole file is refused. The built-in data is read without a panic and is the table the other properties are about.", "quantifier": "every text, every custom data, every library for floating point numbers that reads what it writes", "why_tests_cant": "Universal over file contents and data: every string, escape, nesting, order and repetition of members.", "anchors": ["src/html_data.rs::HTMLDataV1", "src/html_data.rs::ITagData", "src/html_data.rs::IAttributeData", "src/html_data.rs::IValueSet", "src/html_data.rs::IValueData", "src/html_data.rs::IReference", "src/html_data.rs::Description", "src/language_facts/web_custom_data.rs::HTML_DATA_INSTANCE"]}
{"id": "C73", "title": "Scanning a well-formed document gives its pieces", "statement": "The scanner run from the start of a well-formed document to its end reports exactly the pieces the document is written with, in their order: brackets, tag names, white space inside of tags, attribute names, '=' signs, values with their quotes, text, comments, doctypes, scripts and style sheets, each with its kind, its text and its offsets, none of them with an error, and nothing else. The texts of the pieces, one behind the other, are the document.", "quantifier": "every well-formed document of any size and nesting, both case modes, with and without pseudo close tags", "why_tests_cant": "Universal over documents: every token of every document is fixed.", "anchors": ["src/parser/html_scanner.rs::Scanner::scan", "src/parser/html_scanner.rs::Scanner::get_token_type", "src/parser/html_scanner.rs::Scanner::get_token_offset", "src/parser/html_scanner.rs::Scanner::get_token_text", "src/parser/html_scanner.rs::Scanner::get_token_error"]}
{"id": "C74", "title": "The folding ranges of a well-formed document", "statement": "In a well-formed document whose elements have end tags that repeat the name as it is written in the start tag, and whose region markers are paired among siblings (each end has its start among the siblings before it; starts may be left open), the folding ranges are these: for each element that spans more than two lines, from the line of its name to the line before the one it ends on; for each comment on more than one line that is no region marker, from the line its text begins on to the line it ends on, marked as comment; for each pair of region markers on different lines, from the line of the first to the line of the second, marked as region. Those inside an element come before that of the element. The range of an element or a region is left out if it begins on the line where the range reported before it begins; if all begin on different lines none is left out.", "quantifier": "every well-formed document of any size and nesting with paired regions, every set of void elements, both case modes", "why_tests_cant": "Universal over documents: the whole list of ranges is fixed.", "anchors": ["src/services/html_folding.rs::get_folding_ranges"]}
{"id": "C75", "title": "The links of a well-formed document", "statement": "In a well-formed document the links are exactly these, in the order of the text: one for each attribute value that the table of path attributes has as a path, whose text has a letter or digit and is no javascript: URL, and that points somewhere. The range of the link is the value without its quotes, and its target is what the value points to, cleaned; if that is an anchor of the document itself it is replaced by the line and column of the last element with that id, or by the document if there is none. The first path after the name of a base tag gives no link; the first such path of the document, resolved against its address, is the base that later paths are resolved against.", "quantifier": "every well-formed document of any size and nesting, every address of the document, every way to resolve references, every URI library, both case modes", "why_tests_cant": "Universal over documents: the whole list of links is fixed, and so is the absence of any other.", "anchors": ["src/services/html_links.rs::find_document_links", "src/services/html_links.rs::create_link", "src/services/html_links.rs::get_workspace_url"]}
{"id": "C76", "title": "The selection ranges of a well-formed document", "statement": "At every cursor of a well-formed document the selection ranges are exactly these, from the inside out, equal neighbours once: if the innermost element at the cursor has an end tag and the cursor is in its start tag, the value of the attribute at the cursor without its quotes, the value, or the name, then the whole attribute, the tag without its brackets and the element; in its content the content and the element; in its end tag the tag without its brackets and the element; if it has no end tag, the ranges of the attribute and the tag without its brackets (a '/' at its end counts as part of the bracket). Then for each element around it the content and the element, and last the range from the first element of the document to the end of the last. With positions in lines and UTF-16 columns the answer is always given.", "quantifier": "every well-formed document of any size and nesting, every cursor, both case modes, every way to count positions", "why_tests_cant": "Universal over documents and cursors: the whole chain of ranges is fixed.", "anchors": ["src/services/html_selection_range.rs::get_selection_ranges", "src/services/html_selection_range.rs::get_applicable_ranges", "src/services/html_selection_range.rs::get_attribute_level_ranges"]}
{"id": "C77", "title": "A selection is formatted like a document of its own", "statement": "What is written for a selection that does not start inside a tag does not depend on the text around it: it is exactly what formatting the selected text, extended over the blanks around it, gives as a document of its own. It gets an answer exactly when that document does, provided the tab size is positive and the selection starts neither at the start of the text nor on its first line. So what holds of formatted documents holds of formatted selections: of well-formed elements the names, attributes and words stay.", "quantifier": "every document, selection and set of options, both case modes; positions in lines and UTF-16 columns", "why_tests_cant": "The text around a selection is unbounded, and the code looks at the line in front of it to find an indentation.", "anchors": ["src/services/html_formatter.rs: format, compute_indent_level, trim_left"]}
{"id": "C78", "title": "Tag services and symbols of a well-formed document", "statement": "With the cursor on the name of an element, in its start tag or its end tag, highlighting gives both names as they are written, linked editing gives the same ranges (for elements with both tags), renaming replaces exactly these, and the matching position is the same place of the other name. With the cursor on no name all four give nothing. The symbols are the elements, nested as they are, each on its whole element, labelled by name, # and id, and a dot and the name of each class.", "quantifier": "every well-formed document of any size and nesting, every element of it, every cursor, both case modes (linked editing, matching and renaming: elements whose two names are equally long, as they are for ASCII names)", "why_tests_cant": "Elements may be nested in any way, names repeat, and names are looked for again in the text from the node's offsets.", "anchors": ["src/services/html_highlight.rs::find_document_highlights", "src/services/html_linked_editing.rs::find_linked_editing_ranges", "src/services/html_matching_tag_position.rs::find_matching_tag_position", "src/services/html_rename.rs::do_rename", "src/services/html_symbols.rs::find_document_symbols2"]}
{"id": "C79", "title": "Hovering over a well-formed document", "statement": "With the cursor on the name of an element (in either tag) the hover is the tag's documentation on that name; on an attribute's name it is that of this attribute of this tag on the name; on an attribute's value (or its quotes) that of this value, without quotes, of this attribute of this tag on the value as written; on a character reference, in a value or in the text, the character it stands for on the reference; elsewhere in the element what the participants say, in the rest of the end tag and outside of all elements nothing. Every cursor is in one of these cases.", "quantifier": "every well-formed document of any size and nesting, every element and attribute of it, every cursor at a character boundary, all data, participants and settings, both case modes", "why_tests_cant": "Tags, attributes and references can be nested and repeated in any number, and the cursor may be at either end of each.", "anchors": ["src/services/html_hover.rs::do_hover", "src/services/html_hover.rs::get_tag_name_range", "src/services/html_hover.rs::scan_attr_and_attr_value", "src/services/html_hover.rs::get_entity_range", "src/parser/html_document.rs::find_node_at"]}
{"id": "C80", "title": "Completion in a well-formed document", "statement": "What is proposed depends only on what the cursor is on. Behind the '<' of an element: !DOCTYPE on the first line, all tags, and the end tag of the element around it. On its name: all tags. Where the name of an attribute is or can be: the names for this element but those of its other attributes, data- and the data- names of the whole document; they replace the name at the cursor and bring a place for the value, in the quotes of the settings, unless there is a '=' or the attribute takes no value. On a value: the values of this attribute of this element, replacing the value or, inside quotes, the word at the cursor. Behind its '>': its end tag, unless it is void or the settings say no. In its end tag, up to the end of the name: the end tag of the element around it, or all end tags if there is none. In text: what the participants say and, in a reference, the entities. In comments, doctypes, scripts and styles, behind '/>' and in the rest of an end tag: nothing. In front of the first element: nothing. Every cursor is in one of these cases.", "quantifier": "every well-formed document of any size and nesting, every element and attribute of it, every cursor, all data, participants and settings, both case modes", "why_tests_cant": "Tags, attributes and text can be nested and repeated in any number, and each piece has an inside and two ends.", "anchors": ["src/services/html_completion.rs::do_complete", "src/services/html_completion.rs::collect_attribute_name_suggestions", "src/services/html_completion.rs::collect_attribute_value_suggestions", "src/services/html_completion.rs::collect_close_tag_suggestions", "src/parser/html_document.rs::find_node_before"]}
{"id": "C81", "title": "The helpers for typing in a well-formed document", "statement": "In a well-formed document the helper for end tags answers exactly in two places. Behind the '>' of the start tag of an element that is not void and not closed by '/>', unless its end tag follows at once: with the end tag of that element. Behind the '</' of an end tag of an element that is in another one: with the name of the one around it and '>'. The helper for quotes answers nowhere. Where only the quotes of an empty value are missing in a well-formed document, with the '=' directly behind the name and no '/' next, it answers with the quotes of the settings, and putting them in gives the well-formed document, which is read as written.", "quantifier": "every well-formed document of any size and nesting, every cursor, every element and attribute of it, all data and settings, both case modes", "why_tests_cant": "Elements can be nested in any way, and the helpers search the whole tree for the element and scan from its start.", "anchors": ["src/services/html_completion.rs::do_tag_complete", "src/services/html_completion.rs::do_quote_complete", "src/parser/html_document.rs::find_node_before"]}
{"id": "C82", "title": "The tree of tags in any order", "statement": "A document that is any sequence of complete start tags, end tags and other pieces, with end tags missing, misplaced or overlapping, is parsed without a panic to exactly one tree. An end tag closes the innermost open element of its name; elements still open inside of that one end where the end tag begins and are reported as not closed. An end tag for which nothing is open stands for nothing. What is open at the end of the document ends there and is not closed. Adding the missing end tags at the end, innermost first, leaves names, starts, start tags, attributes and nesting of all elements as they were.", "quantifier": "every sequence of tags and other pieces of any length and in any order, each well-formed by itself, all lists of void elements, both case modes", "why_tests_cant": "Documents being edited have unbalanced tags in unlimited combinations; tests show single ones, and a wrong choice of the element to close misplaces every node behind it.", "anchors": ["src/parser/html_parse.rs::parse_html_document", "src/parser/html_document.rs::Node"]}
{"id": "C83", "title": "Closing what is open in an unfinished document", "statement": "At the end of any sequence of complete start tags, end tags and other pieces: behind a '</' the helper proposes the end tag of the innermost element that is still open, and nothing if none is open. Typing '</' and accepting the proposal again and again writes exactly the missing end tags and then ends; the document it leads to has all elements at the same place as before. Behind the '>' of a start tag at the end its end tag is proposed, unless the element is declared void. The tokens of such a document are the pieces of its parts.", "quantifier": "every sequence of tags and other pieces of any length and in any order, each well-formed by itself, all data, both case modes", "why_tests_cant": "Which element is open depends on everything before: overlapping elements, end tags that match nothing and any depth; the claim about repeated typing is about histories of any length.", "anchors": ["src/services/html_completion.rs::do_tag_complete", "src/parser/html_parse.rs::parse_html_document", "src/parser/html_document.rs::find_node_before", "src/parser/html_scanner.rs::Scanner"]}
{"id": "C84", "title": "Folding ranges and links of tags in any order", "statement": "In any sequence of complete start tags, end tags and other pieces, with end tags missing, misplaced or overlapping, the folding ranges are those of the closed elements of the tree, from the line of the name to the line before the end, and those of the comments, in the order in which they end; elements that are not closed do not fold. A range is passed over if the one reported before it begins on the same line. The links are those of the attributes of the start tags, in the order of the text, whatever the tags close.", "quantifier": "every sequence of tags and other pieces of any length and in any order, each well-formed by itself; for folding without region comments and with names that are the same written alike", "why_tests_cant": "Unbalanced tags come in unlimited combinations, and the folding service keeps a stack of its own that has to agree with the tree of the parser in all of them.", "anchors": ["src/services/html_folding.rs::get_folding_ranges", "src/services/html_links.rs::find_document_links", "src/parser/html_parse.rs::parse_html_document"]}
{"id": "C85", "title": "Names of tags in any order", "statement": "In any sequence of complete start tags, end tags and other pieces, with end tags missing, misplaced or overlapping, each element of the tree has its name in its start tag and, if it is closed, in the end tag that closes it, and in no other place. On one of these names the highlights are just them; if both have the same number of bytes, linked editing gives both, the matching position is the same place of the other one, and a rename replaces just them; an element left open has only the name of its start tag, which is renamed alone. Everywhere else, as on an end tag that closes nothing, there are no highlights, no linked ranges, no matching position and no rename.", "quantifier": "every sequence of tags and other pieces of any length and in any order, each well-formed by itself, every element of the tree, every cursor, every new name, both case modes", "why_tests_cant": "Which end tag belongs to which start tag depends on all tags between them and before them; a rename that takes the wrong one damages the document.", "anchors": ["src/services/html_highlight.rs::find_document_highlights", "src/services/html_linked_editing.rs::find_linked_editing_ranges", "src/services/html_matching_tag_position.rs::find_matching_tag_position", "src/services/html_rename.rs::do_rename", "src/parser/html_parse.rs::parse_html_document"]}
{"id": "C86", "title": "Renaming among tags in any order", "statement": "In any sequence of complete start tags, end tags and other pieces, with end tags missing, misplaced or overlapping: the edits of a rename at the name of an element replace its name in its start tag and in the end tag that closes it, if there is one, and leave all else as it is. If no tag of the document has the new name and it is neither void nor script nor style, the document after the rename is parsed to the same tree: every element has its place, its children, its attributes and its name, but for the renamed one, which has the new name.", "quantifier": "every sequence of tags and other pieces of any length and in any order, each well-formed by itself, every element of the tree whose names have the same number of bytes, every cursor on one of them, every new name, both case modes", "why_tests_cant": "Whether an end tag still closes the same element after a rename depends on all names around and inside of it, in unlimited combinations; tests rename balanced elements.", "anchors": ["src/services/html_rename.rs::do_rename", "src/parser/html_parse.rs::parse_html_document", "src/parser/html_document.rs::find_node_at"]}
{"id": "C87", "title": "What is proposed at the end of an unfinished document", "statement": "At the end of any sequence of complete start tags, end tags and other pieces, with end tags missing, misplaced or overlapping: behind a '<' completion proposes the doctype on the first line and nowhere else, every tag of the data in use, and the end tag of the innermost element left open, if there is one and nothing otherwise; behind a '</' that end tag alone, or, if no element is left open, the end tags of all the tags of the data in use. Unless only white space is in front of the '<' on its line, accepting the end tag inserts just what is missing, and the document that results has the same elements left open but for that one.", "quantifier": "every sequence of tags and other pieces of any length and in any order, each well-formed by itself, all data, settings and participants, both case modes", "why_tests_cant": "Completion is asked for in documents that are unfinished, and what is open at the end depends on every tag before it, in unlimited combinations.", "anchors": ["src/services/html_completion.rs::do_complete", "src/parser/html_parse.rs::parse_html_document", "src/parser/html_document.rs::find_node_before"]}
{"id": "C88", "title": "Closing what is open, whatever follows", "statement": "Behind any sequence of complete start tags, end tags and other pieces, with end tags missing, misplaced or overlapping, and in front of any text at all: when '</' is typed, tag completion proposes the rest of the end tag of the innermost element left open there, without the '>' if that is the next byte, unless the '</' already begins the end tag of that element; if no element is left open nothing is proposed. When the '>' of a start tag is typed, its end tag is proposed, unless that is the next thing. In front of a tag, a '>' or the end of the text a '</' begins no end tag with a name.", "quantifier": "every sequence of tags and other pieces of any length and in any order, each well-formed by itself, every text behind the cursor, both case modes, all data", "why_tests_cant": "Tags are typed in the middle of a document; what is open there depends on every tag before the cursor, and all the text behind it, well-formed or not, is parsed before the answer is given.", "anchors": ["src/services/html_completion.rs::do_tag_complete", "src/parser/html_parse.rs::parse_html_document", "src/parser/html_document.rs::find_node_before"]}
{"id": "C89", "title": "Hovering over tags in any order", "statement": "Behind any sequence of complete start tags, end tags and other pieces, with end tags missing, misplaced or overlapping, and in front of any text at all, the cursor is on a start tag: on its name the hover explains the tag, on the name of an attribute that attribute of the tag, and on a value, with its quotes, the value without its quotes of that attribute, each with the range of what it explains. In the end tag that closes an element of any document, the hover on the name explains the tag of the element, with the range of the name in the end tag; elsewhere in the end tag there is none.", "quantifier": "every sequence of tags and other pieces of any length and in any order, each well-formed by itself, every start tag with any attributes, every text behind it, every cursor, all data, participants and settings, both case modes; for end tags every document", "why_tests_cant": "A hover is asked for while the document is incomplete; whether the tag is found depends on all tags before the cursor, and all the text behind it is parsed before the answer is given.", "anchors": ["src/services/html_hover.rs::do_hover", "src/parser/html_parse.rs::parse_html_document", "src/parser/html_document.rs::find_node_at"]}
{"id": "C90", "title": "Quotes in an unfinished start tag", "statement": "Behind any sequence of complete start tags, end tags and other pieces, with end tags missing, misplaced or overlapping, a start tag is being typed: its name, any attributes, the name of one more and its '='. Whatever text follows, the configured quotes are proposed right behind the '=' exactly if the text ends there or white space or a '>' comes next.", "quantifier": "every sequence of tags and other pieces of any length and in any order, each well-formed by itself, every name and list of attributes, every text behind the '=', all settings, both case modes", "why_tests_cant": "Quotes are always asked for in a tag that is not finished yet, and the text behind the cursor then is anything; whether they are proposed depends on where the tags before the cursor put the scan.", "anchors": ["src/services/html_completion.rs::do_quote_complete", "src/parser/html_scanner.rs::scan", "src/parser/html_document.rs::find_node_before"]}
{"id": "C91", "title": "The name of a tag being typed in an unfinished document", "statement": "Behind any sequence of complete start tags, end tags and other pieces, with end tags missing, misplaced or overlapping, the name of a tag is being typed behind a '<'. With the cursor in or right behind the name, and whatever follows the name, completion always answers: it proposes exactly the tags of the data in use, and accepting one replaces the name and changes nothing else.", "quantifier": "every sequence of tags and other pieces of any length and in any order, each well-formed by itself, every name, every text behind it that does not continue the name, every cursor in the name, all data, participants and settings, both case modes", "why_tests_cant": "This is the state in which completion of tags is used; the place of the name follows from scanning everything before it, and the text behind it may be taken for more of the tag.", "anchors": ["src/services/html_completion.rs::do_complete", "src/parser/html_scanner.rs::scan", "src/services/html_completion.rs::CompletionContext::collect_open_tag_suggestions"]}
{"id": "C92", "title": "The end tag proposed, whatever follows", "statement": "Behind any sequence of complete start tags, end tags and other pieces, with end tags missing, misplaced or overlapping, and in front of any text at all, '</' has been typed. Completion right behind it always answers, and proposes the end tag of the innermost element left open and nothing else, in place of the '/' and the name that follows, if one does, unless the '</' already begins that end tag. When no element is left open it proposes the end tags of all tags of the data in use, or nothing if no element begins before the cursor.", "quantifier": "every sequence of tags and other pieces of any length and in any order, each well-formed by itself, every text behind the '</', all data, participants and settings, both case modes", "why_tests_cant": "The text behind the cursor is parsed together with the '</' and may be taken for its name or swallowed by it, in the middle of any document; what is open depends on all tags before.", "anchors": ["src/services/html_completion.rs::do_complete", "src/services/html_completion.rs::CompletionContext::collect_close_tag_suggestions", "src/parser/html_parse.rs::parse_html_document"]}
{"id": "C93", "title": "Proposals behind a '<', whatever follows", "statement": "Behind any sequence of complete start tags, end tags and other pieces, with end tags missing, misplaced or overlapping, and in front of any text that does not turn it into something else, '<' has been typed. Completion right behind it always answers, and proposes exactly the tags of the data in use, each in place of the name that follows, if one does, the document type if the cursor is on the first line, and the end tag of the innermost element left open, if there is one.", "quantifier": "every sequence of tags and other pieces of any length and in any order, each well-formed by itself, every text behind the '<' that does not begin with '/', '!' or '<', all data, participants and settings, both case modes", "why_tests_cant": "The '<' begins an element of its own whose extent depends on all the text behind it, and this element must not change which one around it is proposed to be closed.", "anchors": ["src/services/html_completion.rs::do_complete", "src/services/html_completion.rs::CompletionContext::collect_close_tag_suggestions", "src/parser/html_parse.rs::parse_html_document"]}
{"id": "C94", "title": "Values in an unfinished start tag", "statement": "Behind any sequence of complete start tags, end tags and other pieces, with end tags missing, misplaced or overlapping, a start tag is being typed: its name, any attributes, the name of one more and its '='. Whatever text follows, completion right behind the '=' always answers: the answers of the participants for this tag and attribute, and then exactly the values the data in use have for this attribute of this tag, each to be written in quotes over the value that follows, if one does. When none follows, accepting one inserts it in quotes and changes nothing else.", "quantifier": "every sequence of tags and other pieces of any length and in any order, each well-formed by itself, every name and list of attributes, every text behind the '=', all data, participants and settings, both case modes", "why_tests_cant": "The tag is not finished when values are asked for; which tag and attribute the values are for follows from scanning and parsing everything before the cursor, with arbitrary text behind it.", "anchors": ["src/services/html_completion.rs::do_complete", "src/services/html_completion.rs::CompletionContext::collect_attribute_value_suggestions", "src/parser/html_scanner.rs::scan", "src/parser/html_document.rs::find_node_before"]}
{"id": "C95", "title": "Attribute names in an unfinished start tag", "statement": "Behind any sequence of complete start tags, end tags and other pieces, with end tags missing, misplaced or overlapping, a start tag is being typed: its name, any attributes, and white space, behind which the text ends or a '<' or '>' and then anything follows. In that white space completion always answers, and it proposes exactly 'data-', the attributes the data in use have for the tag, and the attributes of the whole document whose names begin with 'data-', the last two without those the tag has already; each once.", "quantifier": "every sequence of tags and other pieces of any length and in any order, each well-formed by itself, every name, list of attributes and white space, every text from the '<' or '>' on, every cursor in the white space, all data, participants and settings, both case modes", "why_tests_cant": "The tag is not finished when its attributes are asked for; which attributes it has already depends on where the scan of a cut-off tag ends, and the text behind it may be taken for more of them.", "anchors": ["src/services/html_completion.rs::do_complete", "src/services/html_completion.rs::CompletionContext::collect_attribute_name_suggestions", "src/parser/html_scanner.rs::scan", "src/parser/html_document.rs::find_node_before"]}
{"id": "C96", "title": "The name of an attribute being typed in an unfinished document", "statement": "Behind any sequence of complete start tags, end tags and other pieces, with end tags missing, misplaced or overlapping, the name of an attribute is being typed in a start tag: behind it the text ends or a '<' or '>' and then anything follows. With the cursor in or right behind that name completion answers, and it proposes exactly 'data-', the attributes the data in use have for the tag without those the tag has already, except that the one at the cursor stays, and the attributes of the whole document whose names begin with 'data-' and that the tag does not have; each once.", "quantifier": "every sequence of tags and other pieces of any length and in any order, each well-formed by itself, every name, list of attributes and name of an attribute, every text from the '<' or '>' on, every cursor in the name, all data, participants and settings, both case modes", "why_tests_cant": "The attribute being typed is itself one of the attributes of the tag, and must not be taken out of the proposals with the others; the tag is not finished, and the text behind it is anything.", "anchors": ["src/services/html_completion.rs::do_complete", "src/services/html_completion.rs::CompletionContext::collect_attribute_name_suggestions", "src/parser/html_scanner.rs::scan", "src/parser/html_document.rs::find_node_before"]}
