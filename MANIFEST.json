{
 "claims": [
  {
   "property": "C01",
   "status": "proved",
   "theorems": [
    "c01_output_has_no_marker",
    "c01_unescaped_has_no_marker"
   ],
   "note": ""
  },
  {
   "property": "C02",
   "status": "proved",
   "theorems": [
    "c02_output_has_no_newline_marker"
   ],
   "note": ""
  },
  {
   "property": "C03",
   "status": "proved",
   "theorems": [
    "c03_disabled_identity",
    "c03_mode_is_kept",
    "c03_disabled_text_identity"
   ],
   "note": ""
  },
  {
   "property": "C04",
   "status": "proved",
   "theorems": [
    "c04_text_inserts_only",
    "c04_content_inserts_only",
    "unescape_refines_loop"
   ],
   "note": ""
  },
  {
   "property": "C05",
   "status": "proved",
   "theorems": [
    "c05_text_round_trip",
    "c05_content_backslashes"
   ],
   "note": ""
  },
  {
   "property": "C06",
   "status": "proved",
   "theorems": [
    "c06_text_no_nul",
    "c06_only_nul_replaced",
    "c05_text_round_trip"
   ],
   "note": ""
  },
  {
   "property": "C07",
   "status": "proved",
   "theorems": [
    "c07_text_no_atx",
    "c07_content_no_atx"
   ],
   "note": ""
  },
  {
   "property": "C08",
   "status": "proved",
   "theorems": [
    "c08_text_no_setext",
    "c08_content_no_setext"
   ],
   "note": ""
  },
  {
   "property": "C09",
   "status": "proved",
   "theorems": [
    "c09_text_no_break",
    "c09_content_no_break",
    "c09_text_with_tabs_refuted"
   ],
   "note": "tabs between the characters are not detected; collapsing removes tabs"
  },
  {
   "property": "C10",
   "status": "proved",
   "theorems": [
    "c10_text_no_quote",
    "c10_content_no_quote"
   ],
   "note": ""
  },
  {
   "property": "C11",
   "status": "proved",
   "theorems": [
    "c11_text_no_bullet",
    "c11_text_no_ordered",
    "c11_content_no_bullet",
    "c11_content_no_ordered"
   ],
   "note": ""
  },
  {
   "property": "C12",
   "status": "partial",
   "theorems": [
    "c12_text_no_fence",
    "c12_content_no_fence",
    "c12_text_no_code_span_partial",
    "c12_content_backticks",
    "c12_code_span_refuted"
   ],
   "note": "code spans can open when a line of the text starts with three or more backticks/tildes (refuted)"
  },
  {
   "property": "C13",
   "status": "partial",
   "theorems": [
    "c13_text_emphasis",
    "c13_content_emphasis",
    "c13_content_strikethrough",
    "c13_commonmark_whitespace_refuted"
   ],
   "note": "VT, NEL, U+2028, U+2029 count as white space in Go only (refuted for CommonMark white space)"
  },
  {
   "property": "C14",
   "status": "partial",
   "theorems": [
    "c14_text_brackets",
    "c14_content_brackets",
    "c14_across_lines_refuted"
   ],
   "note": "brackets across a line break are not escaped (refuted)"
  },
  {
   "property": "C15",
   "status": "partial",
   "theorems": [
    "c15_no_raw_angle_brackets",
    "c15_entities_read_back_partial",
    "c15_ampersand_refuted"
   ],
   "note": "no raw angle brackets proved; recoverability refuted (ampersand is not escaped), proved without ampersand"
  },
  {
   "property": "C16",
   "status": "proved",
   "theorems": [
    "c16_collapse",
    "c16_idempotent",
    "c16_model_is_loop"
   ],
   "note": ""
  },
  {
   "property": "C17",
   "status": "partial",
   "theorems": [
    "c17_other_characters_stay",
    "c17_elements_stay",
    "c17_blanks",
    "c17_exact",
    "c17_empty_text_refuted",
    "c17_two_blanks_refuted"
   ],
   "note": "characters, elements and spacing proved for all trees without neighbouring texts; absence of empty text nodes refuted; in a whole conversion neighbouring texts occur and blanks can meet (refuted)"
  },
  {
   "property": "C18",
   "status": "proved",
   "theorems": [
    "c18_hard_breaks",
    "c18_at_most_one_blank_line",
    "c18_idempotent",
    "c18_lines_kept",
    "c18_model_is_loop"
   ],
   "note": ""
  },
  {
   "property": "C19",
   "status": "proved",
   "theorems": [
    "c19_trimmed",
    "c19_no_blank_runs",
    "c19_code_newlines",
    "c19_bell_refuted",
    "c19_mark_refuted"
   ],
   "note": "For all trees, modes, options and sets of bundled plugins with base; the refutations show why texts with the marker characters are excluded. The function that makes addresses absolute is a parameter assumed not to bring in the marker characters."
  },
  {
   "property": "C20",
   "status": "proved",
   "theorems": [
    "c20_fence_longer"
   ],
   "note": ""
  },
  {
   "property": "C21",
   "status": "partial",
   "theorems": [
    "c21_code_block_round_trip_partial",
    "c21_one_newline_removed",
    "c21_info_string_refuted",
    "c21_info_newline_refuted",
    "c21_marker_in_code_refuted"
   ],
   "note": "refuted for class attributes with a backtick or newline and for code with U+F002"
  },
  {
   "property": "C22",
   "status": "partial",
   "theorems": [
    "c22_code_span_delimits",
    "c22_round_trip_iff_partial",
    "c22_collapsed_code",
    "c22_round_trip_refuted",
    "c22_blank_code_refuted"
   ],
   "note": "content round trip exactly when both or neither end is a backtick"
  },
  {
   "property": "C23",
   "status": "proved",
   "theorems": [
    "c23_delimiters_hug"
   ],
   "note": ""
  },
  {
   "property": "C24",
   "status": "partial",
   "theorems": [
    "c24_link_text_no_blank_line",
    "c24_multi_line",
    "c24_trailing_newline_refuted"
   ],
   "note": "links proved; setext headings with trailing line break refuted"
  },
  {
   "property": "C25",
   "status": "partial",
   "theorems": [
    "c25_every_line_quoted",
    "c25_code_block_in_quote_refuted"
   ],
   "note": "refuted for code blocks inside a quote"
  },
  {
   "property": "C26",
   "status": "partial",
   "theorems": [
    "c26_title_round_trip_partial",
    "c27_link_read_partial",
    "c26_title_refuted",
    "c26_quote_refuted"
   ],
   "note": "refuted for backslash before a double quote or at the end"
  },
  {
   "property": "C27",
   "status": "proved",
   "theorems": [
    "c27_brackets",
    "c27_no_breakout",
    "c27_parsed_no_control",
    "c27_link_read_partial",
    "c27_control_refuted",
    "c27_backslash_refuted"
   ],
   "note": "the listed characters never occur; other control characters and a final backslash can still break the link (refuted)"
  },
  {
   "property": "C28",
   "status": "proved",
   "theorems": [
    "c28_query",
    "c28_destination"
   ],
   "note": "with the recalled net/url"
  },
  {
   "property": "C29",
   "status": "partial",
   "theorems": [
    "c29_brackets_preceded",
    "c29_description_ends_partial",
    "c29_alt_text_kept",
    "c29_description_refuted",
    "c29_trailing_backslash_refuted"
   ],
   "note": "refuted for two backslashes in a row or one at the end"
  },
  {
   "property": "C30",
   "status": "partial",
   "theorems": [
    "c30_consecutive_numbers_partial",
    "c30_indent_width_partial",
    "c30_negative_start_refuted"
   ],
   "note": "start >= 0; negative start refuted"
  },
  {
   "property": "C31",
   "status": "proved",
   "theorems": [
    "c31_list_lines",
    "c31_item_lines"
   ],
   "note": ""
  },
  {
   "property": "C32",
   "status": "partial",
   "theorems": [
    "c32_atx_heading",
    "c32_disabled_mode_refuted"
   ],
   "note": "smart mode proved, disabled mode refuted"
  },
  {
   "property": "C33",
   "status": "partial",
   "theorems": [
    "c33_setext_heading_partial",
    "c33_trailing_break_refuted"
   ],
   "note": "last line not blank; otherwise refuted"
  },
  {
   "property": "C34",
   "status": "proved",
   "theorems": [
    "c34_rectangular",
    "c34_alignment",
    "c34_alignment_colspan_refuted"
   ],
   "note": ""
  },
  {
   "property": "C35",
   "status": "partial",
   "theorems": [
    "c35_cells_read_back_partial",
    "c35_code_refuted",
    "c35_alt_refuted",
    "c35_title_refuted",
    "c35_disabled_mode_refuted",
    "c35_no_padding_refuted",
    "c35_code_block_refuted",
    "c35_newline_marker_refuted"
   ],
   "note": "for bars in texts, smart mode and padded cells; false for bars in code, alternative texts and titles, in disabled mode, without padding, and for the code block newline marker (refuted)"
  },
  {
   "property": "C36",
   "status": "proved",
   "theorems": [
    "c36_pre_renderers_in_order",
    "c36_post_renderers_in_order",
    "c36_text_transformers_in_order",
    "c36_renderers_in_order",
    "c36_unescapers_in_order",
    "c36_tag_type_lowest",
    "c36_sorts_exists"
   ],
   "note": "for every sorting algorithm that returns a sorted permutation"
  },
  {
   "property": "C37",
   "status": "proved",
   "theorems": [
    "c37_first_success_wins",
    "c37_fallback"
   ],
   "note": ""
  },
  {
   "property": "C38",
   "status": "proved",
   "theorems": [
    "c38_error_sticks",
    "c38_no_error"
   ],
   "note": ""
  },
  {
   "property": "C39",
   "status": "proved",
   "theorems": [
    "c39_state_isolated",
    "c39_lookups_keep_registrations",
    "c39_lookups_keep_answers",
    "c39_lookup_is_model"
   ],
   "note": "sequential use; for concurrent use see C40"
  },
  {
   "property": "C40",
   "status": "partial",
   "theorems": [
    "c40_one_goroutine",
    "c40_sorted_types_partial",
    "c40_wrong_type_refuted",
    "c40_lost_registration_refuted"
   ],
   "note": "refuted when the types of a tag were registered out of order"
  },
  {
   "property": "C41",
   "status": "proved",
   "theorems": [
    "c41_invisible_nodes_do_not_matter",
    "c41_root_refuted"
   ],
   "note": "for every root that is not itself of a removed kind; the root itself is not removed (refuted)"
  },
  {
   "property": "C42",
   "status": "proved",
   "theorems": [
    "c42_preparation_keeps_visible_text",
    "c42_merge_text_nodes",
    "c42_fake_spans",
    "c42_redundant",
    "c42_merge_adjacent",
    "c42_swap_tags",
    "c42_empty_code",
    "c42_add_space",
    "c42_block_alternatives",
    "c42_list_items",
    "c42_list_end_comments",
    "c42_merge_walk_ends",
    "c42_space_walk_ends"
   ],
   "note": "for trees as a parser makes them (tidy: void elements have no children)"
  },
  {
   "property": "C43",
   "status": "partial",
   "theorems": [
    "c43_texts_are_joined",
    "c43_redundant_tags_are_gone",
    "c43_nested_bold_refuted",
    "c43_no_link_in_link",
    "c43_bold_around_link_refuted",
    "c43_lists_hold_items",
    "c43_no_misplaced_block",
    "c43_strikethrough_refuted",
    "c43_titles",
    "c43_lists_are_apart",
    "c43_only_end_comments_added",
    "c43_end_comments_exact",
    "c43_redundant_exact",
    "c43_alternatives_exact",
    "c43_tags"
   ],
   "note": "lists, links, blocks and end comments proved for the prepared tree; nested bold and bold around a link refuted"
  },
  {
   "property": "C44",
   "status": "proved",
   "theorems": [
    "c44_letters_survive",
    "c44_disabled_mode_refuted",
    "c44_table_refuted"
   ],
   "note": "All documents, base, commonmark and strikethrough plugins, smart mode, delimiters without a number sign. False for tables and in disabled mode."
  },
  {
   "property": "C45",
   "status": "partial",
   "theorems": [
    "c45_conversion_ends",
    "c45_smart_never_panics",
    "c45_disabled_mode_refuted",
    "c45_cli_never_panics"
   ],
   "note": "termination of rendering in both modes, no panic in smart mode; disabled mode refuted"
  },
  {
   "property": "C46",
   "status": "partial",
   "theorems": [
    "c46_documented_accepted",
    "c46_other_values_refused",
    "c46_table_values",
    "c46_accepted_options_partial",
    "c46_odd_delimiters_refuted",
    "c46_link_behavior_refuted"
   ],
   "note": "documented values are accepted and other words refused for all choices; delimiters, rules and the behaviour of empty links are checked only in part (refuted)"
  },
  {
   "property": "C47",
   "status": "proved",
   "theorems": [
    "c47_no_change",
    "c47_crash",
    "c47_existing_fails",
    "c47_success",
    "c47_flag",
    "c47_overwrite_crash_refuted"
   ],
   "note": "at every moment, also with other processes; with the flag a crash can lose the old contents (refuted)"
  },
  {
   "property": "C48",
   "status": "partial",
   "theorems": [
    "c48_names",
    "c48_distinct_partial",
    "c48_collision_refuted",
    "c48_below"
   ],
   "note": "distinct if the shortened hashes differ and no input is named like a hashed output; otherwise two inputs can share a path (refuted for every hash)"
  },
  {
   "property": "C49",
   "status": "proved",
   "theorems": [
    "c49_exit_status",
    "c49_no_panic",
    "c49_stdout_refuted"
   ],
   "note": "errors of writes to standard output are ignored (refuted)"
  },
  {
   "property": "C50",
   "status": "proved",
   "theorems": [
    "c50_table_options",
    "c50_rejected",
    "c50_several_inputs",
    "c50_one_source"
   ],
   "note": ""
  },
  {
   "property": "C51",
   "status": "partial",
   "theorems": [
    "c51_percent_keeps",
    "c51_ipv6_refuted"
   ],
   "note": "path, query and fragment keep their meaning; hosts in brackets do not (refuted)"
  },
  {
   "property": "C52",
   "status": "proved",
   "theorems": [
    "c52_outputs",
    "c52_on_disk",
    "c52_letters_partial",
    "c52_overwrite_input_refuted",
    "c52_overwrite_output_refuted"
   ],
   "note": "without --output-overwrite; with it inputs and outputs can be lost (refuted)"
  },
  {
   "property": "C53",
   "status": "partial",
   "theorems": [
    "c53_include",
    "c53_include_order",
    "c53_nested_refuted"
   ],
   "note": "the right text always; in document order if matches are not nested; otherwise not (refuted)"
  },
  {
   "property": "C54",
   "status": "partial",
   "theorems": [
    "c54_exclude_partial",
    "c54_exclude_text_partial",
    "c54_last_child_refuted",
    "c54_root_refuted"
   ],
   "note": "for selectors that do not depend on siblings to the right; false otherwise (refuted)"
  },
  {
   "property": "C55",
   "status": "partial",
   "theorems": [
    "c55_cells_shown",
    "c55_second_caption_refuted",
    "c55_two_colspans_refuted"
   ],
   "note": "rows, order and contents always; the exact columns only without spans; two cells with colspan in one row are placed wrongly (refuted)"
  },
  {
   "property": "C56",
   "status": "partial",
   "theorems": [
    "c56_language",
    "c56_no_language",
    "c56_pre_code",
    "c56_substring_refuted",
    "c56_tab_refuted"
   ],
   "note": "class names separated by spaces; refuted: a class that merely contains language- as a part, classes separated by tabs"
  },
  {
   "property": "C57",
   "status": "partial",
   "theorems": [
    "c57_grid_partial",
    "c57_staircase_refuted",
    "c57_past_end_refuted",
    "c57_right_of_wide_refuted",
    "c57_zero_refuted"
   ],
   "note": "the grid holds when spans are nested, stay inside the table and no row has two cells over several columns; refuted without these"
  },
  {
   "property": "C58",
   "status": "partial",
   "theorems": [
    "c58_emphasis",
    "c58_break",
    "c58_rule",
    "c58_quote",
    "c58_heading",
    "c58_setext",
    "c58_pre",
    "c58_code",
    "c58_list",
    "c58_image",
    "c58_link",
    "c58_link_brackets",
    "c58_other",
    "c58_document",
    "c58_comment",
    "c58_strike",
    "c58_row"
   ],
   "note": "every element in every context; destinations without white space, brackets and percent signs to read them back, start attributes that are not negative, titles without stray backslashes"
  },
  {
   "property": "C59",
   "status": "proved",
   "theorems": [
    "c59_flags",
    "c59_accepted"
   ],
   "note": "the flag package is recalled"
  },
  {
   "property": "C60",
   "status": "partial",
   "theorems": [
    "c60_no_blocks",
    "c60_no_tabs",
    "c60_no_breaks",
    "c60_no_emphasis",
    "c60_no_links",
    "c60_no_code_spans_partial",
    "c60_code_span_refuted",
    "c60_no_strikethrough",
    "c60_read_back",
    "c60_entity_refuted",
    "c60_newline_mark_refuted"
   ],
   "note": "texts without U+F002 (refuted with it); reading back needs texts without ampersand (refuted with it); no code spans if there are not three backticks in a row (refuted with them)"
  },
  {
   "property": "C61",
   "status": "proved",
   "theorems": [
    "c61_select",
    "c61_only_included",
    "c61_excluded_gone",
    "c61_converts"
   ],
   "note": "matching and HTML parsing are parameters"
  },
  {
   "property": "C62",
   "status": "proved",
   "theorems": [
    "c62_utf8",
    "c62_no_headings",
    "c62_addresses",
    "c62_disabled_refuted",
    "c62_delimiter_refuted"
   ],
   "note": "smart mode with all bundled plugins, delimiters without a number sign (refuted otherwise); with any options and in both modes if there are no headings; refuted for headings with escaping disabled; the function that makes addresses absolute is shown to meet its hypothesis (c62_addresses)"
  },
  {
   "property": "C63",
   "status": "partial",
   "theorems": [
    "c63_formatting_is_kept",
    "c63_formatting_is_exact",
    "c63_merging_is_exact",
    "c63_bold_becomes_italic_refuted",
    "c63_text_enters_link_refuted",
    "c63_text_enters_heading_refuted",
    "c63_code_becomes_bold_refuted"
   ],
   "note": "nothing is lost, per kind of formatting; that nothing is added is proved for documents with one kind of inline formatting and refuted otherwise"
  },
  {
   "property": "C64",
   "status": "partial",
   "theorems": [
    "c64_blocks_partial",
    "c64_rule_refuted",
    "c64_quoted_refuted",
    "c64_dash_item_refuted",
    "c64_number_refuted",
    "c64_empty_refuted",
    "c64_joined_lists_refuted"
   ],
   "note": "pages of groups, nested lists, headings, paragraphs, rules, code blocks and texts between blocks, with texts that can be read back; quotes (refuted), tables and inline elements are missing; refuted for items that start with two bullets, negative start numbers, empty headings or lists between texts, lists side by side without the end comment and configured rules that are none"
  },
  {
   "property": "C65",
   "status": "partial",
   "theorems": [
    "c65_relative_partial",
    "c65_absolute_partial",
    "c65_scheme_relative_partial",
    "c65_any_relative_partial",
    "c65_any_hosted_partial",
    "c65_opaque",
    "c65_empty_segment_refuted",
    "c65_unreadable_domain_refuted"
   ],
   "note": "paths of any characters without empty segments (refuted with them), hosts of unreserved characters; net/url is recalled; a domain that cannot be read is ignored (refuted)"
  },
  {
   "property": "C66",
   "status": "proved",
   "theorems": [
    "c66_package",
    "c66_methods",
    "c66_read_error",
    "c66_no_output_with_error",
    "c66_no_output_with_error_reader",
    "c66_no_output_with_error_node"
   ],
   "note": "html.Parse and the reader are parameters; contexts of the caller have no effect in the model because the bundled handlers do not ask for their values"
  },
  {
   "property": "C67",
   "status": "partial",
   "theorems": [
    "c67_formatting_partial",
    "c67_punctuation_refuted",
    "c67_underscore_refuted",
    "c67_star_refuted"
   ],
   "note": "with the comments between lists, and without quotes, images, tables and line breaks; headings that do not end in a number sign; texts beside blocks only at the start of a block or item; emphasis in a paragraph or heading may have texts, code and emphasis of the other kind in it but starts and ends with a text (that in links has a text), texts in emphasis and links without the characters [ ] * _ ` \\\\, other texts with them unless a star or underscore is at the end of the text, beside emphasis or before a character that is not ASCII, a bracket is never closed in it, or a backtick is at its start or beside backticks and tildes; no & and no control characters; ASCII at the ends of emphasis, no white space there unless a browser does not show it; code with single spaces; inlined links without titles; refuted for emphasis of punctuation between letters, underscores inside words and stars in emphasised text"
  },
  {
   "property": "C68",
   "status": "proved",
   "theorems": [
    "c68_suggestion",
    "c68_no_suggestion",
    "c68_report",
    "c68_only_unknown",
    "c68_long_refuted"
   ],
   "note": "names of fewer than 65535 characters (the distances of the library are 16 bit numbers; refuted for longer ones, which Linux accepts as an argument); the levenshtein library and package flag are recalled"
  },
  {
   "property": "C69",
   "status": "proved",
   "theorems": [
    "c69_usage",
    "c69_help"
   ],
   "note": "releases whose version has no line end; text/template is recalled"
  },
  {
   "property": "C70",
   "status": "proved",
   "theorems": [
    "c70_release",
    "c70_version",
    "c70_lines"
   ],
   "note": "fields without line ends for the lines"
  },
  {
   "property": "C71",
   "status": "proved",
   "theorems": [
    "c71_quoted",
    "c71_names_path",
    "c71_raw_refuted",
    "c71_existing_file_refuted"
   ],
   "note": "strconv.Quote is recalled, unicode.IsPrint is a parameter; colours off; refuted for names of flags (written as they are, control characters included) and for a file in the output directory (only the directory is named)"
  },
  {
   "property": "C72",
   "status": "partial",
   "theorems": [
    "c72_html_kept",
    "c72_blank_lines_refuted",
    "c72_wrapper_tags_partial",
    "c72_wrapper_refuted",
    "c72_plain_wrapper"
   ],
   "note": "html.Render is a parameter; the element stands below the document, html, body, div, section, article or main; refuted: two blank lines in a row lose one (also inside pre), the wrapper drops attributes and does not stand apart"
  },
  {
   "property": "C73",
   "status": "proved",
   "theorems": [
    "c73_exact",
    "c73_tokens",
    "c73_few_spaces",
    "c73_unneeded",
    "c73_both_sides",
    "c73_siblings"
   ],
   "note": "every tree"
  },
  {
   "property": "C74",
   "status": "partial",
   "theorems": [
    "c74_path_partial",
    "c74_fragment",
    "c74_segments_refuted"
   ],
   "note": "net/url is recalled; paths without a domain and behind plain hosts; refuted: an encoded slash becomes a slash when another character has to be encoded"
  },
  {
   "property": "C75",
   "status": "proved",
   "theorems": [
    "c75_prefix",
    "c75_stays"
   ],
   "note": "on disk: without --output-overwrite and nobody else acting"
  },
  {
   "property": "C76",
   "status": "partial",
   "theorems": [
    "c76_no_race",
    "c76_accesses",
    "c76_snapshots",
    "c76_registered",
    "c76_nothing_lost",
    "c76_no_deadlock",
    "c76_no_deadlock_queue",
    "c76_ends",
    "c76_plugin_names_refuted"
   ],
   "note": "refuted for the names of the plugins"
  }
 ]
}