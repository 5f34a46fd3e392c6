{
 "claims": [
  {
   "property": "C01",
   "status": "proved",
   "theorems": [
    "C01_scan_reaches_eos"
   ],
   "note": "Any scanner state; the call bound is tight (C01_tight)."
  },
  {
   "property": "C02",
   "status": "proved",
   "theorems": [
    "C02_tokens_tile"
   ],
   "note": ""
  },
  {
   "property": "C03",
   "status": "proved",
   "theorems": [
    "C03_eos_exact",
    "C03_eos_at_end"
   ],
   "note": ""
  },
  {
   "property": "C04",
   "status": "proved",
   "theorems": [
    "C04_empty_tokens",
    "C04_recovery_dead"
   ],
   "note": ""
  },
  {
   "property": "C05",
   "status": "proved",
   "theorems": [
    "C05_panic_causes",
    "C05_causes_panic",
    "C05_no_panic"
   ],
   "note": "Examples C05_cause_a, C05_cause_b reach both panics from the start of a document."
  },
  {
   "property": "C06",
   "status": "proved",
   "theorems": [
    "C06_token_shapes",
    "C06_character_classes",
    "C06_names_delimited"
   ],
   "note": "Shapes are the separate specification token_shape."
  },
  {
   "property": "C07",
   "status": "proved",
   "theorems": [
    "C07_script_content",
    "C07_script_end_unique",
    "C07_script_end_exists",
    "C07_script_entered"
   ],
   "note": ""
  },
  {
   "property": "C08",
   "status": "proved",
   "theorems": [
    "C08_style_content",
    "C07_script_entered"
   ],
   "note": ""
  },
  {
   "property": "C09",
   "status": "proved",
   "theorems": [
    "C09_comment",
    "C09_doctype"
   ],
   "note": ""
  },
  {
   "property": "C10",
   "status": "proved",
   "theorems": [
    "C10_resume",
    "C10_resume_in_tag_refuted"
   ],
   "note": "Proved for every boundary outside a start tag; inside a start tag resuming is refuted."
  },
  {
   "property": "C11",
   "status": "proved",
   "theorems": [
    "C11_parse_total",
    "C11_parse_clean"
   ],
   "note": ""
  },
  {
   "property": "C12",
   "status": "proved",
   "theorems": [
    "C12_spans"
   ],
   "note": ""
  },
  {
   "property": "C13",
   "status": "proved",
   "theorems": [
    "C13_nodes_are_open_tags"
   ],
   "note": ""
  },
  {
   "property": "C14",
   "status": "proved",
   "theorems": [
    "C14_tag_names",
    "C14_tag_at_start",
    "C06_character_classes"
   ],
   "note": ""
  },
  {
   "property": "C15",
   "status": "proved",
   "theorems": [
    "C15_end_tags"
   ],
   "note": ""
  },
  {
   "property": "C17",
   "status": "proved",
   "theorems": [
    "C17_closed"
   ],
   "note": ""
  },
  {
   "property": "C18",
   "status": "proved",
   "theorems": [
    "C18_attributes",
    "C18_attribute_names",
    "C18_last_wins"
   ],
   "note": ""
  },
  {
   "property": "C19",
   "status": "proved",
   "theorems": [
    "C19_attribute_order"
   ],
   "note": ""
  },
  {
   "property": "C20",
   "status": "proved",
   "theorems": [
    "C20_void",
    "C20_upper_case_refuted"
   ],
   "note": "The upper-case case is a finding."
  },
  {
   "property": "C16",
   "status": "proved",
   "theorems": [
    "C16_nearest_open",
    "C16_unmatched",
    "C16_only_end_tags"
   ],
   "note": ""
  },
  {
   "property": "C23",
   "status": "proved",
   "theorems": [
    "C23_find_node_at"
   ],
   "note": ""
  },
  {
   "property": "C24",
   "status": "proved",
   "theorems": [
    "C24_find_node_before"
   ],
   "note": ""
  },
  {
   "property": "C25",
   "status": "proved",
   "theorems": [
    "C25_find_root_at"
   ],
   "note": ""
  },
  {
   "property": "C26",
   "status": "proved",
   "theorems": [
    "C26_panics",
    "C26_classify",
    "C26_void_close_refuted"
   ],
   "note": "The '>' of a void element is classified as '/>': a finding."
  },
  {
   "property": "C27",
   "status": "partial",
   "theorems": [
    "C27_positions",
    "C27_contract"
   ],
   "note": "Proved for the concrete document utf16_doc; the source of the lsp-textdocument crate is not in /repo, so that it behaves like this is the contract assumed by the service theorems."
  },
  {
   "property": "C28",
   "status": "proved",
   "theorems": [
    "C28_rename",
    "C28_replaced_text",
    "C28_same_length",
    "C28_space_refuted",
    "C28_length_refuted"
   ],
   "note": "Findings: wrong ranges with white space before a name and when case variants differ in byte length."
  },
  {
   "property": "C30",
   "status": "proved",
   "theorems": [
    "C30_linked_editing",
    "C30_names"
   ],
   "note": ""
  },
  {
   "property": "C31",
   "status": "proved",
   "theorems": [
    "C31_matching",
    "C31_involution",
    "C31_alike",
    "C31_cut_refuted"
   ],
   "note": "Fails at the end of a name whose end tag lacks '>': a finding."
  },
  {
   "property": "C32",
   "status": "proved",
   "theorems": [
    "C32_highlights"
   ],
   "note": ""
  },
  {
   "property": "C33",
   "status": "proved",
   "theorems": [
    "C33_symbols_nested",
    "C33_symbols_flat",
    "C33_ranges_nested",
    "C33_names"
   ],
   "note": ""
  },
  {
   "property": "C34",
   "status": "proved",
   "theorems": [
    "C34_ranges"
   ],
   "note": ""
  },
  {
   "property": "C35",
   "status": "proved",
   "theorems": [
    "C35_sublist",
    "C35_limit",
    "C35_elements",
    "C35_limit_panics_refuted",
    "C35_limit_exceeded_refuted",
    "C35_limit_empty_refuted"
   ],
   "note": "The refuted cases (ranges that share a line) are findings."
  },
  {
   "property": "C47",
   "status": "proved",
   "theorems": [
    "C47_nested",
    "C47_elements",
    "C47_region_refuted"
   ],
   "note": ""
  },
  {
   "property": "C48",
   "status": "proved",
   "theorems": [
    "C48_elements_fold",
    "C48_comments_fold",
    "C48_case_refuted"
   ],
   "note": "Tags that differ in case do not fold: a finding."
  },
  {
   "property": "C36",
   "status": "proved",
   "theorems": [
    "C36_nested",
    "C36_contains_cursor",
    "C36_elements",
    "C36_attributes",
    "C36_outside",
    "C36_one_per_cursor",
    "C36_terminates",
    "C36_ascii",
    "C36_cursor_refuted",
    "C36_nested_refuted",
    "C36_panic_refuted",
    "C36_unclosed_refuted"
   ],
   "note": "Nesting and containment hold outside the refuted cases, which are findings; the hypotheses plain_tags and cursor_covered exclude exactly those."
  },
  {
   "property": "C37",
   "status": "proved",
   "theorems": [
    "C37_on_values",
    "C37_text",
    "C37_disjoint",
    "C37_complete",
    "C37_base",
    "C37_remote",
    "C37_anchor",
    "C37_file_target",
    "C37_terminates",
    "C37_lone_quote_refuted",
    "C37_empty_base_refuted",
    "C37_base_target_refuted",
    "C37_space_refuted",
    "C37_fragment_query_refuted",
    "C37_file_refuted"
   ],
   "note": "For every resolver and every URI library; the refuted theorems are findings (panics, lost links)."
  },
  {
   "property": "C38",
   "status": "proved",
   "theorems": [
    "C38_strip",
    "C38_panics",
    "C38_unique"
   ],
   "note": "A lone quote panics: a finding, characterised exactly."
  },
  {
   "property": "C39",
   "status": "proved",
   "theorems": [
    "C39_resolve",
    "C39_text",
    "C39_base_query_refuted",
    "C39_keeps_scheme_and_authority",
    "C39_absolute",
    "C39_invalid",
    "C39_panics",
    "C39_rfc_contract",
    "C39_climb_refuted",
    "C39_dot_refuted",
    "C39_query_refuted",
    "C39_empty_path_refuted"
   ],
   "note": "Assuming the contract uri_ok of the URI library, met by the RFC 3986 instance. Climbing above the root leaves the authority: a finding."
  },
  {
   "property": "C44",
   "status": "proved",
   "theorems": [
    "C44_documentation",
    "C44_support",
    "C44_hover",
    "C44_hover_capability_refuted",
    "C44_description_kind_refuted",
    "C44_participant_refuted"
   ],
   "note": "For the documentation built from data and for hover; findings: the hover capability is not what is consulted, and the kind of a description is ignored."
  },
  {
   "property": "C45",
   "status": "proved",
   "theorems": [
    "C45_start_tag",
    "C45_reference",
    "C45_reference_range",
    "C45_reference_text",
    "C45_content",
    "C45_end_tag",
    "C45_sound",
    "C45_tag_contents",
    "C45_attribute_contents",
    "C45_value_contents",
    "C45_terminates",
    "C45_ascii",
    "C45_unfinished_refuted",
    "C45_attribute_case_refuted"
   ],
   "note": "Findings: the hover in some unfinished tags shows the enclosing element, and attributes match by case."
  },
  {
   "property": "C43",
   "status": "proved",
   "theorems": [
    "C43_void_elements",
    "C43_void_sorted",
    "C43_void_additive",
    "C43_void_single",
    "C43_is_void",
    "C43_replace",
    "C43_new",
    "C43_path_attribute",
    "C43_attributes",
    "C43_values",
    "C43_builtin_void",
    "C43_formatter_void",
    "C43_builtin_tags",
    "C43_capital_lost",
    "C43_upper_case_refuted",
    "C43_value_set_v_refuted"
   ],
   "note": "Finding: in case-insensitive mode a custom tag with a capital letter is never found."
  },
  {
   "property": "C40",
   "status": "proved",
   "theorems": [
    "C40_tag_complete",
    "C40_start_tag",
    "C40_unique",
    "C40_unfinished_refuted",
    "C40_closed_refuted",
    "C40_nameless_refuted"
   ],
   "note": "Exact when no tag before the cursor is unfinished; findings otherwise, and an end tag behind some content is not seen."
  },
  {
   "property": "C41",
   "status": "proved",
   "theorems": [
    "C41_quote_complete",
    "C41_offered",
    "C41_configured",
    "C41_unfinished_refuted"
   ],
   "note": "Exact when no tag before the cursor is unfinished; a finding otherwise."
  },
  {
   "property": "C42",
   "status": "proved",
   "theorems": [
    "C42_attribute_names",
    "C42_data_refuted"
   ],
   "note": "The exact set of labels, for every cursor on or behind an attribute name and in the white space of a start tag; 'data-' is proposed always, a finding."
  },
  {
   "property": "C49",
   "status": "proved",
   "theorems": [
    "C49_edits_at_cursor"
   ],
   "note": ""
  },
  {
   "property": "C50",
   "status": "proved",
   "theorems": [
    "C50_tag_names"
   ],
   "note": "Both the labels and the edits, exactly."
  },
  {
   "property": "C51",
   "status": "proved",
   "theorems": [
    "C51_values",
    "C51_value_edits",
    "C51_quote_refuted",
    "C51_space_refuted",
    "C51_panic_refuted"
   ],
   "note": "Labels exactly; edits. Findings: behind the closing quote the edit replaces the quote; after '= ' names are proposed; values with other than ASCII characters end the service."
  },
  {
   "property": "C52",
   "status": "proved",
   "theorems": [
    "C52_end_tag",
    "C52_indent_refuted",
    "C52_rest_refuted"
   ],
   "note": "Findings: text other than ASCII before '</' on its line is replaced; part of the name of the end tag may be kept."
  },
  {
   "property": "C53",
   "status": "proved",
   "theorems": [
    "C53_terminates",
    "C53_ascii",
    "C53_columns",
    "C53_panic_refuted"
   ],
   "note": "Finding: a column smaller than what precedes the offset in its line makes a subtraction underflow."
  },
  {
   "property": "C46",
   "status": "proved",
   "theorems": [
    "C46_whole",
    "C46_range",
    "C46_replaces",
    "C46_replaces_line_refuted",
    "C46_twice_refuted"
   ],
   "note": "Finding: a selection at the start of a line gives an edit that starts one line below (for the usual line/UTF-16 positions); formatting is not idempotent."
  },
  {
   "property": "C54",
   "status": "proved",
   "theorems": [
    "C54_whole",
    "C54_range",
    "C46_outside_dropped_refuted",
    "C46_unclosed_dropped_refuted",
    "C46_pre_refuted",
    "spaced_value_refuted"
   ],
   "note": "Findings: what is outside elements and the content of unclosed elements is lost."
  },
  {
   "property": "C55",
   "status": "proved",
   "theorems": [
    "C55_whole",
    "C55_range",
    "C55_nameless_refuted",
    "C55_from_start_refuted",
    "C55_first_line_refuted",
    "C55_tab_size_refuted"
   ],
   "note": "Findings: panics for elements without a name, selections on the first line, tab size 0."
  },
  {
   "property": "C56",
   "status": "proved",
   "theorems": [
    "C56_white_space_only"
   ],
   "note": "For whole documents."
  },
  {
   "property": "C57",
   "status": "proved",
   "theorems": [
    "C57_start_tags"
   ],
   "note": "For whole documents."
  },
  {
   "property": "C22",
   "status": "proved",
   "theorems": [
    "C22_pointers",
    "C22_linked",
    "C22_live"
   ],
   "note": "For every policy of moving buffers; a use of a moved or freed buffer is an explicit outcome of the model."
  },
  {
   "property": "C21",
   "status": "proved",
   "theorems": [
    "C21_round_trip",
    "C21_elements",
    "module_script_refuted",
    "upper_end_refuted",
    "upper_void_refuted"
   ],
   "note": "For documents of text, comments, doctypes, elements, script and style elements, void and self-closing elements with attributes without value, unquoted or quoted; each restriction of the class is in Render.good, and the refuted witnesses show documents just outside it."
  },
  {
   "property": "C29",
   "status": "proved",
   "theorems": [
    "C29_rename",
    "C29_structure",
    "C29_any_name_refuted"
   ],
   "note": "For every document of the class of C21, every element of it and cursor on one of its two names. The new name must keep the kind of element (well-formed, not void or raw); the service itself accepts any name, with witnesses of what that does."
  },
  {
   "property": "C58",
   "status": "proved",
   "theorems": [
    "C58_completion",
    "C58_columns",
    "C58_hover",
    "C58_tag_complete",
    "C58_quote_complete",
    "C58_selection",
    "C58_rounding",
    "C58_folding",
    "C58_selection_refuted",
    "C58_tag_complete_refuted"
   ],
   "note": "Completion: exact condition. The others: for clean documents; that white space matters is shown by a witness. Selection ranges assume that the text crate rounds split offsets down (true of the model instance)."
  },
  {
   "property": "C59",
   "status": "proved",
   "theorems": [
    "C59_outdated",
    "C59_tags",
    "C59_rescan",
    "C59_completion",
    "C59_selection",
    "C59_completion_refuted",
    "C59_selection_refuted"
   ],
   "note": "That ASCII matters for completion and selection ranges is shown by witnesses. Off character boundaries the text crate's position_at is assumed to return some position (on ASCII text it is only asked on boundaries)."
  },
  {
   "property": "C60",
   "status": "proved",
   "theorems": [
    "C60_session",
    "C60_last",
    "C60_read_only",
    "C60_case",
    "C60_scanner",
    "C60_hover_defaults"
   ],
   "note": "Limited folding and formatting of a range are left out of C60_session (they can panic, see C35, C55), not of the others; links are asked for under the hypotheses of C61."
  },
  {
   "property": "C61",
   "status": "proved",
   "theorems": [
    "C61_answers",
    "C61_links",
    "C61_rfc_contract",
    "C37_lone_quote_refuted",
    "C37_empty_base_refuted",
    "C37_file_refuted"
   ],
   "note": "Assuming the contracts uri_ok and uri_closed of the URI library, met by the RFC 3986 instance. Each hypothesis on the document has a witness of the panic without it."
  },
  {
   "property": "C62",
   "status": "proved",
   "theorems": [
    "C62_doctype",
    "C62_value",
    "C62_attribute_name",
    "C62_element_name",
    "C62_style",
    "C62_script",
    "C62_inside_tag",
    "C62_trim_left",
    "C62_collapse",
    "C62_reference",
    "C62_javascript",
    "C62_scheme",
    "C62_region",
    "C62_white",
    "C62_quotes",
    "C62_letter_or_digit",
    "C62_single_quote"
   ],
   "note": "The patterns are read from their source text by a small parser; completion and hover apply theirs to single characters only."
  },
  {
   "property": "C63",
   "status": "proved",
   "theorems": [
    "C63_same_tree",
    "C63_same_outline",
    "C63_unclosed_refuted"
   ],
   "note": "Well-formed as in C21 (Render.good_doc). The witness shows that an unclosed element loses its content."
  },
  {
   "property": "C64",
   "status": "proved",
   "theorems": [
    "C64_settles",
    "C64_spread",
    "C64_settled",
    "C64_twice_refuted",
    "C64_grows_refuted"
   ],
   "note": "Three is sharp (witness). Finding: an attribute value without its second quote grows by ' />' each time the document is formatted."
  },
  {
   "property": "C65",
   "status": "proved",
   "theorems": [
    "C65_rest",
    "C65_same_rest",
    "C65_unfinished_refuted"
   ],
   "note": "Well-formed as in C21 (Render.good_doc); includes the case that the rest cannot be read (C11). The witness: an unfinished comment in front."
  },
  {
   "property": "C66",
   "status": "proved",
   "theorems": [
    "C66_start_tag",
    "C66_no_second",
    "C66_end_tag",
    "C66_restores",
    "C66_restores_end",
    "C66_other_end",
    "C66_same_name_refuted",
    "C66_complete_refuted"
   ],
   "note": "Stated for elements other than script, style and void elements. Two witnesses: a nested element of the same name right before the outer end tag gets no proposal; inside a complete end tag the name of the element around is proposed."
  },
  {
   "property": "C67",
   "status": "proved",
   "theorems": [
    "C67_lines",
    "C67_reached",
    "C67_rename",
    "C67_linked_editing",
    "C67_matching_tag",
    "C67_highlights",
    "C67_symbols",
    "C67_hover",
    "C67_completion",
    "C67_quote_completion",
    "C67_tag_completion",
    "C67_first_line_refuted",
    "C67_data_attributes_refuted",
    "C67_leading_text_refuted"
   ],
   "note": "Well-formed as in C21 (Render.good_doc). Each condition on completion has a witness. Folding, links, selection ranges and formatting are not covered: they look at the whole document."
  },
  {
   "property": "C68",
   "status": "proved",
   "theorems": [
    "C68_blank_lines",
    "C68_elements",
    "C68_gaps",
    "C68_exact_fit_refuted",
    "C68_short_children_refuted",
    "C68_tab_wrap_refuted",
    "C68_value_lines_refuted"
   ],
   "note": "For formatting whole documents. Witnesses: an element exactly as long as a line may be is broken; a short element has its children on lines of their own and its end tag behind the last one; attributes wrapped with tabs get blank lines; blank lines in attribute values stay."
  },
  {
   "property": "C69",
   "status": "proved",
   "theorems": [
    "C69_open_bracket",
    "C69_open_space",
    "C69_end_tag_name",
    "C69_end_open",
    "C69_text",
    "C69_start_tag_end",
    "C69_silent",
    "C69_attribute_edits"
   ],
   "note": "Tag names, attribute names and attribute values are C50, C42 and C51; C52 gives more on end tag openings. Entities are proposed for any name, the client filters; in text in front of the first tag nothing is proposed."
  },
  {
   "property": "C70",
   "status": "proved",
   "theorems": [
    "C70_reached",
    "C70_rename",
    "C70_linked_editing",
    "C70_matching_tag",
    "C70_highlights",
    "C70_symbols",
    "C70_hover",
    "C70_completion",
    "C70_quote_completion",
    "C70_tag_completion",
    "C70_data_attributes_refuted",
    "C70_open_element_refuted"
   ],
   "note": "Well-formed as in C21 (Render.good_doc). C70_reached: every such document above every text that can be parsed meets the hypotheses with line and UTF-16 column positions. Witnesses: data- attributes below are offered above, and an element that is not closed can be closed from below."
  },
  {
   "property": "C71",
   "status": "proved",
   "theorems": [
    "C71_attribute_name",
    "C71_attribute_space",
    "C71_value",
    "C71_auto_close",
    "C71_entity",
    "C71_data_value_refuted"
   ],
   "note": "Well-formed as in C21 (Render.good_doc). C71_entity is for positions in lines and UTF-16 columns. Witness: a data- proposal accepted for a name that has a value brings a second value, and the written one is lost."
  },
  {
   "property": "C72",
   "status": "proved",
   "theorems": [
    "C72_grammar",
    "C72_file",
    "C72_round_trip",
    "C72_members",
    "C72_attributes",
    "C72_builtin",
    "C72_not_finite_refuted"
   ],
   "note": "serde_json and the derived code are not in /repo; modelled is what they are documented to do, on the whole text. Assuming of f32 that a finite number is written as a JSON number that is read as itself (float_ok, with an instance). C72_builtin computes on the text of the table."
  },
  {
   "property": "C73",
   "status": "proved",
   "theorems": [
    "C73_tokens",
    "C73_pieces"
   ],
   "note": "Well-formed as in C21 (Render.good_doc); the pieces are Lexing.lex_all. Pieces without text (an empty script, white space that is not there) are not reported."
  },
  {
   "property": "C74",
   "status": "proved",
   "theorems": [
    "C74_folding",
    "C74_all",
    "C74_case_refuted",
    "C74_crossing_refuted",
    "C74_marker_refuted"
   ],
   "note": "Well-formed as in C21 (Render.good_doc), region markers paired among siblings. The refuted theorems show what happens beyond: names that differ in case, a region that ends inside an element that begins in it, and a comment that only mentions endregion."
  },
  {
   "property": "C75",
   "status": "proved",
   "theorems": [
    "C75_links",
    "C75_total"
   ],
   "note": "Well-formed as in C21 (Render.good_doc). C75_links: for runs without a panic; C75_total: there is none under the hypotheses of C61. What a value points to is points_to of C37. Bases are included, with the quirk of C37 that a base tag without a path takes the next one of any tag."
  },
  {
   "property": "C76",
   "status": "proved",
   "theorems": [
    "C76_selection",
    "C76_utf16"
   ],
   "note": "Well-formed as in C21 (Render.good_doc). C76_selection is for every document under the contract textdoc_ok; it leaves a panic open in a void element with a character beyond ASCII before its '>', which C76_utf16 excludes for lines and UTF-16 columns."
  },
  {
   "property": "C77",
   "status": "proved",
   "theorems": [
    "C77_alone",
    "C77_answers",
    "C77_well_formed",
    "C77_indent_refuted"
   ],
   "note": "The refuted theorem shows what follows for the indentation: compute_indent_level reads from the byte in front of the line, which is a line break, so that its level is always 0 and a selection in an indented block is moved to the margin."
  },
  {
   "property": "C78",
   "status": "proved",
   "theorems": [
    "C78_on_name",
    "C78_elsewhere",
    "C78_symbols"
   ],
   "note": "Well-formed as in C21 (Render.good_doc). Highlights without, the other services with the condition that the two names of the element have the same number of bytes (C28_length_refuted shows why)."
  },
  {
   "property": "C79",
   "status": "proved",
   "theorems": [
    "C79_tag",
    "C79_attribute",
    "C79_value",
    "C79_reference",
    "C79_elsewhere",
    "C79_end_tag",
    "C79_outside",
    "C79_cases"
   ],
   "note": "Well-formed as in C21 (Render.good_doc); positions in lines and UTF-16 columns (utf16_doc, C27). What the three documentations contain is C44 and C45_*_contents."
  },
  {
   "property": "C80",
   "status": "proved",
   "theorems": [
    "C80_bracket",
    "C80_name",
    "C80_attribute",
    "C80_attribute_edits",
    "C80_value",
    "C80_auto_close",
    "C80_end_tag",
    "C80_text",
    "C80_front",
    "C80_silent",
    "C80_cases"
   ],
   "note": "Well-formed as in C21 (Render.good_doc); positions as in C27. In an end tag the code proposes to close the element around it (see DESIGN 5)."
  },
  {
   "property": "C81",
   "status": "proved",
   "theorems": [
    "C81_tag",
    "C81_quote",
    "C81_restores",
    "C81_restores_refuted"
   ],
   "note": "Well-formed as in C21 (Render.good_doc); positions as in C27. C81_restores is the counterpart of C66_restores for quotes; C81_restores_refuted shows that its condition on the next byte and the missing white space before the equals sign matter."
  },
  {
   "property": "C82",
   "status": "proved",
   "theorems": [
    "C82_every",
    "C82_tree",
    "C82_unique",
    "C82_parse",
    "C82_completed"
   ],
   "note": "The tree is given by the relation PropSoup.denotes over sequences of parts; C82_every: every sequence stands for a tree; C82_tree: the parser returns it. Parts are well-formed by themselves as in C21."
  },
  {
   "property": "C83",
   "status": "proved",
   "theorems": [
    "C83_tokens",
    "C83_next",
    "C83_closing",
    "C83_start_tag"
   ],
   "note": "Sequences of parts and what is left open as in C82. C83_closing speaks about histories through the relation typed_out; that the places stay is C82_completed."
  },
  {
   "property": "C84",
   "status": "proved",
   "theorems": [
    "C84_folding",
    "C84_links"
   ],
   "note": "Sequences of parts and their tree as in C82. Folding compares names byte by byte, so names that are the same only up to case are excluded (C74_case_refuted); region comments are C74. C84_links: for runs without a panic, as in C75."
  },
  {
   "property": "C85",
   "status": "proved",
   "theorems": [
    "C85_on_name",
    "C85_elsewhere",
    "C85_unique"
   ],
   "note": "Sequences of parts and their tree as in C82; elements are written as their tags. PropSoupTags.spelled says where the names of an element are. Highlights without, the other services with the condition that both names have the same number of bytes (C28_length_refuted shows why)."
  },
  {
   "property": "C86",
   "status": "proved",
   "theorems": [
    "C86_text",
    "C86_structure",
    "C86_used_refuted"
   ],
   "note": "Sequences of parts and their tree as in C82, names as in C85. The element is one written as a start tag of the sequence (void, self-closed and raw ones are C29). C86_used_refuted shows why the new name must not be in use: it may take the end tag of another element."
  },
  {
   "property": "C87",
   "status": "proved",
   "theorems": [
    "C87_bracket",
    "C87_slash",
    "C87_accepted",
    "C87_answers"
   ],
   "note": "Sequences of parts and what is left open as in C82. C87_answers: there is always an answer. How the edit of the end tag looks, also with its indentation corrected, is closes of C69; in a document without any tag nothing is proposed behind the end tag opener."
  },
  {
   "property": "C88",
   "status": "proved",
   "theorems": [
    "C88_end_tag",
    "C88_nothing_open",
    "C88_start_tag",
    "C88_no_name"
   ],
   "note": "Sequences of parts and what is left open as in C82; the text behind the cursor is arbitrary. ends_next is that of C66."
  },
  {
   "property": "C89",
   "status": "proved",
   "theorems": [
    "C89_tag",
    "C89_attribute",
    "C89_value",
    "C89_end_tag"
   ],
   "note": "Sequences of parts as in C82; positions in lines and UTF-16 columns (utf16_doc, C27). What the explanations contain is C44 and C45. A value is explained where the cursor is not on a character reference (C45_reference)."
  },
  {
   "property": "C90",
   "status": "proved",
   "theorems": [
    "C90_quotes",
    "C90_nothing"
   ],
   "note": "Sequences of parts as in C82; the text behind the '=' is arbitrary. C90_quotes is an equivalence about the answer with quotes; C90_nothing adds, on texts the scanner cannot fail on (clean, C58), that the answer otherwise is none."
  },
  {
   "property": "C91",
   "status": "proved",
   "theorems": [
    "C91_name",
    "C91_accepted"
   ],
   "note": "Sequences of parts as in C82; behind the name the text ends or white space, '/', '<' or '>' comes next, and then anything. all_tags is that of C69, accepted that of C71."
  },
  {
   "property": "C92",
   "status": "proved",
   "theorems": [
    "C92_end_tag",
    "C92_nothing_open",
    "C92_answers"
   ],
   "note": "Sequences of parts and what is left open as in C82; the text behind the '</' is arbitrary. That there is an answer is C92_answers. closes is that of C69, ends_next that of C66, innermost_left that of C87."
  },
  {
   "property": "C93",
   "status": "proved",
   "theorems": [
    "C93_bracket",
    "C93_answers"
   ],
   "note": "Sequences of parts and what is left open as in C82; the text behind the '<' is arbitrary but for its first byte (tag_may_begin). That there is an answer is C93_answers. all_tags and closes are those of C69."
  },
  {
   "property": "C94",
   "status": "proved",
   "theorems": [
    "C94_values",
    "C94_accepted"
   ],
   "note": "Sequences of parts as in C82, the unfinished tag as in C90; the text behind the '=' is arbitrary. value_from (where the value that follows ends) is that of C51, accepted that of C71; C94_accepted is for texts that end behind the '=' or go on with white space or '>'."
  },
  {
   "property": "C95",
   "status": "proved",
   "theorems": [
    "C95_names"
   ],
   "note": "Sequences of parts as in C82; behind the white space the text ends or '<' or '>' comes next (tag_over), and then anything. proposes is that of C42. 'Each once' is for data that do not have 'data-' itself as an attribute of the tag."
  },
  {
   "property": "C96",
   "status": "proved",
   "theorems": [
    "C96_typed"
   ],
   "note": "Sequences of parts as in C82; tag_over as in C95, proposes that of C42. word_column is the condition of C58 on the columns of the editor, met by UTF-16 columns (C58_columns). 'Each once' is for data that do not have 'data-' itself as an attribute of the tag."
  }
 ]
}