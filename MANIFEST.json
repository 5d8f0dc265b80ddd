{
 "claims": [
  {
   "property": "C01",
   "status": "proved",
   "theorems": [
    "C01_escape_text_reads_back"
   ],
   "note": "All strings."
  },
  {
   "property": "C02",
   "status": "proved",
   "theorems": [
    "C02_code_span_reads_back",
    "C02_both_end_spaces_refuted"
   ],
   "note": "Proved for every single-line content that does not both start and end with a space; the excluded contents are shown to fail."
  },
  {
   "property": "C03",
   "status": "partial",
   "theorems": [
    "C03_fenced_block_partial",
    "C03_quoted_block_partial",
    "C03_item_block_partial",
    "C03_description_block_partial",
    "C03_lone_cr_refuted",
    "C03_info_backslash_refuted",
    "C03_info_backtick_refuted",
    "C03_info_glued_refuted",
    "C03_description_fence_refuted",
    "C03_description_extra_line_refuted"
   ],
   "note": "Content and info string read back for every literal without a lone carriage return and every info string that survives re-reading; the excluded inputs and the description-details writer are refuted with witnesses."
  },
  {
   "property": "C04",
   "status": "partial",
   "theorems": [
    "C04_table_cell_escaping",
    "C04_pipe_counter_agrees",
    "C04_code_in_cell_refuted"
   ],
   "note": "Escaping function proved; the full claim fails for backslash-pipe inside code spans (witness)."
  },
  {
   "property": "C05",
   "status": "proved",
   "theorems": [
    "C05_tables_aligned"
   ],
   "note": "Also: each row and the delimiter row read back as the given cells and alignments."
  },
  {
   "property": "C06",
   "status": "proved",
   "theorems": [
    "C06_C07_wrap_text",
    "C06_C07_wrap_text_first_line_partial",
    "C06_leading_space_refuted"
   ],
   "note": "Unconditional for visible characters (both entry points); words kept for text that does not start with a space, otherwise refuted."
  },
  {
   "property": "C07",
   "status": "partial",
   "theorems": [
    "C06_C07_wrap_text",
    "C06_C07_wrap_text_first_line_partial",
    "C07_hard_break_width_refuted",
    "C07_continuation_prefix_refuted",
    "C07_item_first_line_refuted",
    "C07_footnote_lines",
    "C07_footnote_marker_refuted"
   ],
   "note": "Every line before hard-break spaces; footnotes of one paragraph are shown to be filled greedily, unless the marker is wider than the line (witness); hard-break spaces and the continuation prefix after a hard break are not counted, and neither is the marker of a list item on its first line (witnesses)."
  },
  {
   "property": "C08",
   "status": "proved",
   "theorems": [
    "C08_short_lines_kept",
    "C08_short_lines_kept_first_line",
    "C08_short_lines_before_long",
    "C08_hard_breaks_kept"
   ],
   "note": "For trimmed source lines."
  },
  {
   "property": "C09",
   "status": "partial",
   "theorems": [
    "C09_ellipsis_partial",
    "C09_ellipsis_all_runs",
    "C09_four_dots_preserved_refuted",
    "C09_idempotent_refuted"
   ],
   "note": "Exact behaviour on every run of dots; preservation of longer runs and idempotence are refuted."
  },
  {
   "property": "C10",
   "status": "partial",
   "theorems": [
    "C10_multichar_dash",
    "C10_single_char_dash",
    "C10_C11_pipeline",
    "C10_reachability",
    "C10_each_reachable_refuted"
   ],
   "note": "Exact rewriting; reachability characterised, one-way shadowing refutes the full claim."
  },
  {
   "property": "C11",
   "status": "proved",
   "theorems": [
    "C10_C11_pipeline",
    "C11_quotes_only_change_quotes",
    "C11_double_quotes_all_converted"
   ],
   "note": ""
  },
  {
   "property": "C12",
   "status": "partial",
   "theorems": [
    "C12_quotes_idempotent_partial",
    "C12_double_and_apostrophe_idempotent",
    "C12_quotes_idempotent_refuted"
   ],
   "note": "Fails when a letter is followed by two straight single quotes."
  },
  {
   "property": "C13",
   "status": "partial",
   "theorems": [
    "C13_validate_dash_settings",
    "C13_cli_rejects_exactly_conflicts",
    "C13_javascript_conflict_refuted"
   ],
   "note": "Proved for the validator and the command line; the JavaScript entry point never validates (witness)."
  },
  {
   "property": "C14",
   "status": "proved",
   "theorems": [
    "C14_ranges_exact",
    "C14_dash_pattern_exact",
    "C14_values_exact",
    "C14_cli_options_in_range",
    "C14_line_width_flag_panics_refuted"
   ],
   "note": "Also: any options the CLI formats with are in range whatever the files contain; an out-of-range --line-width panics (extra finding)."
  },
  {
   "property": "C15",
   "status": "partial",
   "theorems": [
    "C15_style_valid_partial",
    "C15_valid_breaks_accepted",
    "C15_mixed_markers_refuted",
    "C15_leading_space_refuted"
   ],
   "note": "True for styles that start with a marker and use one kind; refuted for mixed markers and for leading white space."
  },
  {
   "property": "C16",
   "status": "partial",
   "theorems": [
    "C16_cascade_sections_partial",
    "C16_cascade_settings",
    "C16_explicit_file_settings",
    "C16_explicit_config_bypasses",
    "C16_nested_setting_refuted",
    "C16_broken_file_discards_project_refuted"
   ],
   "note": "Proved per top-level key; sections replace each other wholesale, so the claim fails for settings inside sections."
  },
  {
   "property": "C17",
   "status": "proved",
   "theorems": [
    "C17_nearest_ancestor",
    "C17_discover"
   ],
   "note": ""
  },
  {
   "property": "C21",
   "status": "partial",
   "theorems": [
    "C21_formatter_partial",
    "C21_settles_deterministic",
    "C21_warning_lines_zero",
    "C21_warning_line_refuted"
   ],
   "note": "Code never lost, formatter called exactly when a language is bound and not marked; the warning carries line 0, not the block's line (refuted)."
  },
  {
   "property": "C18",
   "status": "partial",
   "theorems": [
    "C18_read_only",
    "C18_check_every_moment",
    "C18_check_reports",
    "C18_standard_input",
    "C18_C19_runs_finish",
    "C18_stdin_check_refuted"
   ],
   "note": "Proved for files under every interleaving; with standard input --check always exits 0 and ignores the named files (refuted)."
  },
  {
   "property": "C19",
   "status": "proved",
   "theorems": [
    "C19_write",
    "C19_schedule_independent",
    "C18_C19_runs_finish",
    "C19_duplicate_arguments_refuted"
   ],
   "note": "Distinct files, every interleaving, failing writes included; extra finding: a file listed twice can be corrupted."
  },
  {
   "property": "C20",
   "status": "partial",
   "theorems": [
    "C20_crash_partial",
    "C20_crash_refuted",
    "C20_failed_write_refuted"
   ],
   "note": "Only files whose write has begun are at risk; those can be lost (witness)."
  },
  {
   "property": "C22",
   "status": "partial",
   "theorems": [
    "C22_bounded_partial",
    "C22_result_is_complete",
    "C22_never_stuck",
    "C22_blocked_write_refuted",
    "C22_background_process_refuted",
    "C22_large_output_refuted"
   ],
   "note": "Bound for code that fits the pipe and formatters that leave no background process; results always complete; the rest is refuted."
  },
  {
   "property": "C37",
   "status": "proved",
   "theorems": [
    "C37_expand_paths",
    "C37_collect_files"
   ],
   "note": "Without symbolic links; which entries match the configured patterns is up to the walker of the crate ignore."
  },
  {
   "property": "C29",
   "status": "proved",
   "theorems": [
    "C29_heading",
    "C29_empty_heading_refuted"
   ],
   "note": "Extra finding: an empty level 1/2 heading gets an empty underline and stops being a heading."
  },
  {
   "property": "C30",
   "status": "partial",
   "theorems": [
    "C30_sentence_case_partial",
    "C30_letters_kept_partial",
    "C30_double_backtick_refuted",
    "C30_fffd_refuted",
    "C30_link_destination_refuted"
   ],
   "note": "All texts without U+FFFD, all noun lists without U+FFFD, with single-backtick code spans; the rest is refuted by witnesses."
  },
  {
   "property": "C33",
   "status": "partial",
   "theorems": [
    "C33_undefined_partial",
    "C33_sources",
    "C33_disabled_partial",
    "C33_occurs_partial",
    "C33_table_warnings",
    "C33_escaped_refuted",
    "C33_nested_table_refuted",
    "C33_footnote_table_refuted"
   ],
   "note": "Undefined references: never on a disabled line, for every document. All warnings: proved for documents without directives nested in regions and without tables in footnotes; both exceptions, and warnings about escaped brackets that do not occur on the line, are refuted with witnesses."
  },
  {
   "property": "C34",
   "status": "partial",
   "theorems": [
    "C34_js_options_partial",
    "C34_js_enums",
    "C34_invalid_em_dash_refuted"
   ],
   "note": "Everything but the fallback of a malformed em dash pattern, which disables the conversion instead of using the default."
  },
  {
   "property": "C23",
   "status": "partial",
   "theorems": [
    "C23_C24_document_partial",
    "C23_region_partial",
    "C23_content_ignored",
    "C23_nested_directive_refuted",
    "C23_footnote_refuted",
    "C23_definition_refuted"
   ],
   "note": "The whole output is described block by block; blocks governed by a directive are their source, in order, whatever they contain. Refuted: a disable-next-line inside a region ends it, footnote definitions in a region are moved and formatted, link definitions in a region are lost."
  },
  {
   "property": "C24",
   "status": "proved",
   "theorems": [
    "C24_disable_file",
    "C24_format",
    "C23_C24_document_partial"
   ],
   "note": "Every document without nested document nodes, every position of the directive; the source lines after the directive are written unchanged; for a run of format_with_warnings on input without carriage returns the output ends with the rest of the input character by character."
  },
  {
   "property": "C25",
   "status": "partial",
   "theorems": [
    "C25_defined_once_partial",
    "C25_target_partial",
    "C25_label_written",
    "C25_links_written",
    "C25_definition_read",
    "C25_same_text_refuted",
    "C25_case_refuted",
    "C25_unreadable_refuted",
    "C25_code_refuted",
    "C25_file_refuted",
    "C25_disabled_refuted"
   ],
   "note": "Every document without nested document nodes and without disable-file: every label used is defined exactly once, on a line of its own, by one of its uses, whose URL and title are those of a link of the document; every link is written with its URL or as such a use; definitions with well-formed parts read back. The right target is proved when labels that read the same have the same target and refuted otherwise; so are unreadable definitions, disable-file and disabled regions."
  },
  {
   "property": "C26",
   "status": "partial",
   "theorems": [
    "C26_once_partial",
    "C26_twice_refuted",
    "C26_lost_refuted",
    "C26_empty_refuted",
    "C26_content_refuted",
    "C26_early_refuted"
   ],
   "note": "Every document without nested document nodes, without disable-file and with the footnote definitions as children of the root under different names (where the parser puts them): each definition is written exactly once, at the beginning of a line, in the first group after the line of its first reference, with the text of its children. Refuted: disable-file duplicates or loses definitions; a footnote with only an empty quote is not written; an HTML block in a footnote is lost; a footnote referenced only in another footnote can come before it."
  },
  {
   "property": "C27",
   "status": "partial",
   "theorems": [
    "C27_numbering",
    "C27_alignment_partial",
    "C27_alignment_refuted"
   ],
   "note": "Numbers 1, 2, 3 ..., one indentation and the delimiter by parity of the level, for every list and context; columns equal while the number has at most ordered_list_indent_width - 2 digits, refuted beyond (item 100 with width 4)."
  },
  {
   "property": "C28",
   "status": "partial",
   "theorems": [
    "C28_context_partial",
    "C28_context_exact",
    "C28_items",
    "C28_no_influence_refuted"
   ],
   "note": "Every node, state and option set: the whole context is restored; only the first-list flag of description details can be cleared, which is shown to change the indentation of a following sibling."
  },
  {
   "property": "C31",
   "status": "partial",
   "theorems": [
    "C31_no_panic_partial",
    "C31_release",
    "C31_reference_slice",
    "C31_label_refuted",
    "C31_position_refuted"
   ],
   "note": "Every tree, source and option set whose items stand in lists, whose positions are not backward and, with overflow checks, whose plain footnotes have labels that fit the line width (and no line is 0). Refuted: line width 8 with a footnote named note panics in a build with overflow checks; a backward position panics in any build."
  },
  {
   "property": "C32",
   "status": "partial",
   "theorems": [
    "C32_exact",
    "C32_lines",
    "C32_panics_exactly",
    "C32_no_panic_refuted",
    "C32_no_panic_partial"
   ],
   "note": "Exact text for every position that lies in the source; which positions panic is characterised exactly. 'Never panics whatever the position' is refuted (a position whose end column lies before its start column)."
  },
  {
   "property": "C35",
   "status": "proved",
   "theorems": [
    "C35_directives"
   ],
   "note": "All strings; independent grammar of trimmed comments."
  },
  {
   "property": "C36",
   "status": "partial",
   "theorems": [
    "C36_references",
    "C36_footnotes",
    "C36_first_use",
    "C36_footnote_references_refuted"
   ],
   "note": "Proved for references and footnotes; references used inside footnotes are written in order of use, not sorted (witness)."
  },
  {
   "property": "C38",
   "status": "proved",
   "theorems": [
    "C38_inline",
    "C38_heading"
   ],
   "note": "Both collectors, every inline tree."
  },
  {
   "property": "C39",
   "status": "partial",
   "theorems": [
    "C39_same_code",
    "C39_same_panic",
    "C39_code_partial",
    "C39_spans",
    "C39_sentence_case_refuted"
   ],
   "note": "Every tree and every pair of option sets that differ only in punctuation: both runs panic or neither does, with the same code, formatter calls and warnings. Without heading sentence case both outputs hold that code in order and unchanged up to layout (white space, quote marks, the backslash before a pipe in tables); code in footnotes is shown to be the same but not followed to its place in the output. With sentence case refuted: an entity in a heading lets the quote setting decide whether code is lower-cased."
  },
  {
   "property": "C40",
   "status": "partial",
   "theorems": [
    "C40_one_newline_partial",
    "C40_block",
    "C40_one_newline_refuted"
   ],
   "note": "Every document whose last block before its footnote definitions is tidy (a paragraph, ATX heading, visible underlined heading, code block, table, rule, HTML ending in one newline, alert, quote, list or description list whose last block is again of these kinds), with formatting directives only, links that do not end in a newline, and footnotes that are plain or in which some paragraph, code, table or alert writes something. Refuted: front matter alone, empty quotes, empty headings, a list item ending in a heading, a footnote holding an empty quote; definitions alone format to nothing."
  },
  {
   "property": "C41",
   "status": "partial",
   "theorems": [
    "C41_brackets_partial",
    "C41_text_never_forms_link_refuted",
    "C41_escaped_link_refuted"
   ],
   "note": "Proved for escaped text without two adjacent opening brackets or without ']](' (the writer used where no source is known); refuted for nested brackets, and for text written from its source, where an escaped bracket loses its escape. The claim that inline markers are inert is C01."
  },
  {
   "property": "C42",
   "status": "partial",
   "theorems": [
    "C42_text_reads_back_partial",
    "C42_converted_reads_back",
    "C42_escape_refuted",
    "C42_entity_refuted"
   ],
   "note": "Source without backslash and ampersand: what is written reads as the text with its punctuation converted, under any settings. Otherwise, for text that punctuation settings leave alone, whose references are short and stand for one character: reads back exactly if the source escapes only '*', '_', '`' and the backslash. Refuted beyond: any other escape gains a backslash; after a converted quotation mark entities move."
  },
  {
   "property": "C43",
   "status": "partial",
   "theorems": [
    "C43_paragraph",
    "C43_quoted",
    "C43_item",
    "C43_wrapped_into_blocks_refuted",
    "C43_any_text_refuted",
    "C43_blank_word_refuted"
   ],
   "note": "Every text whose words open no block, every width, quotes nested to any depth, every list marker; refuted for words that do (wrapping moves them to the beginning of a line) and for a no-break space standing alone."
  },
  {
   "property": "C44",
   "status": "partial",
   "theorems": [
    "C44_structure_partial",
    "C44_format_partial",
    "C44_front_matter_partial",
    "C44_definitions_partial",
    "C44_front_matter_note_refuted",
    "C44_adjacent_lists_refuted",
    "C44_numbered_heading_refuted",
    "C44_quoted_heading_refuted",
    "C44_quoted_code_refuted",
    "C44_quoted_list_refuted",
    "C44_quoted_loose_list_refuted",
    "C44_code_first_refuted",
    "C44_item_html_refuted",
    "C44_quoted_item_quote_refuted",
    "C44_listed_details_refuted",
    "C44_quoted_details_refuted",
    "C44_empty_quote_refuted",
    "C44_item_heading_refuted",
    "C44_item_rule_refuted",
    "C44_first_rule_refuted",
    "C44_indent_width_refuted",
    "C44_hundredth_item_refuted",
    "C44_adjacent_ordered_refuted",
    "C44_item_table_refuted",
    "C44_item_comment_refuted",
    "C44_alert_table_refuted",
    "C44_details_table_refuted",
    "C44_quoted_html_refuted",
    "C44_quoted_comment_refuted",
    "C44_trailing_html_refuted",
    "C44_long_footnote_refuted",
    "C44_footnote_list_refuted",
    "C44_footnote_code_refuted",
    "C44_footnote_list_first_refuted",
    "C44_footnote_alert_refuted",
    "C44_footnote_break_refuted"
   ],
   "note": "Documents of paragraphs, headings, rules, fenced code, block quotes, alerts, lists, tables, HTML blocks, description lists and footnotes, nested without bound, where: texts hold no word that opens a block and no abbreviation, list markers are four columns wide, headings and rules stand outside list items and headings outside quotes, lists and code have at most one quote around them, lists in quotes are tight, items begin with a paragraph or are empty, ordered lists have at most 99 items, tables stand at the top or in one quote, HTML blocks at the top (all but the last of those at the end being comments), footnotes have different names, and either one paragraph without a hard line break, or a paragraph followed by paragraphs, code, quotes, alerts (not only alerts) and lists, in a footnote whose name is short enough that these are moved by at most three columns (two bytes; one byte for bullet lists), with no code line beginning with a tab and nothing but text or a fence at the end of each block, description lists stand at the top or in quotes, each term with one set of details that begin with a paragraph and hold no list and no code with a long fence (and nothing else in quotes), link definitions are readable. Not covered: tables and rules in footnotes, lists in description details, directives, front matter before a heading of level 2 or 3 in a document with footnotes. Each restriction that is not one of coverage is backed by a refutation."
  },
  {
   "property": "C45",
   "status": "partial",
   "theorems": [
    "C45_wrap_again",
    "C45_wrap_first_again",
    "C45_document_partial",
    "C45_format_partial",
    "C45_heading_again_partial",
    "C45_double_space_refuted",
    "C45_tight_list_refuted",
    "C45_list_after_code_refuted",
    "C45_note_in_note_refuted"
   ],
   "note": "Paragraphs: every text whose words are separated by single spaces (with soft and hard breaks anywhere), every width function with the stated laws, every width and prefix. Documents of paragraphs, headings, code, rules, tables, HTML, front matter, quotes, alerts, nested lists, description lists without lists in them, footnotes and every directive are written the same a second time (headings in sentence case where C52 holds), given that the parser reads the output as the same blocks with the lines as they were wrapped and that footnotes are first referenced on the same sides of section headings and directives. Not covered: lists in descriptions, deeper nestings of quotes and lists. Refuted for two spaces in a row, for tight lists with code in an item, for lists directly below code in an item and for footnotes that only footnotes refer to."
  },
  {
   "property": "C46",
   "status": "partial",
   "theorems": [
    "C46_inlines_read_back_partial",
    "C46_prose_reads_back",
    "C46_word_refuted",
    "C46_nested_refuted",
    "C46_parenthesis_refuted",
    "C46_spaced_url_refuted",
    "C46_url_parenthesis_refuted",
    "C46_title_refuted",
    "C46_relative_url_refuted",
    "C46_emphasised_url_refuted",
    "C46_empty_url_refuted",
    "C46_bracket_url_refuted",
    "C46_new_label_refuted",
    "C46_exclamation_refuted",
    "C46_url_reference_refuted",
    "C46_footnote_refuted",
    "C46_definition_refuted"
   ],
   "note": "Text (as in C42), code spans, soft and hard breaks, HTML, footnote references, and emphasis, links and images nested without bound: the output is a layout of the tree, and reads as the tree whenever that layout has every delimiter where the CommonMark rules let it open or close, no bracket in its texts and links that lead where they should. For prose (text without brackets and <, code, breaks, emphasis that stands at the edges of words, links and images whose URLs and titles need no escaping and that do not stand before a parenthesis, labelled links with texts of text and code, autolinks, footnote references, HTML) this is always so when the reader has the definitions of the references used (C46_prose_reads_back). Where the layout is not so placed the claim is refuted: emphasis with an asterisk in its text inside a word or directly inside strong emphasis; links before a parenthesis, a colon or after a footnote reference; URLs and titles that need escaping; links that are written as autolinks but are none; new labels that capture text."
  },
  {
   "property": "C47",
   "status": "partial",
   "theorems": [
    "C47_heading_content_partial",
    "C47_html_refuted",
    "C47_footnote_refuted",
    "C47_link_code_refuted",
    "C47_link_emphasis_refuted",
    "C47_link_image_refuted",
    "C47_break_refuted",
    "C47_link_escape_refuted"
   ],
   "note": "Headings of text, code, soft breaks, nested emphasis, and links and images with simple text or a label; every level and both heading styles, without sentence case. Refuted for inline HTML, footnote references, hard breaks, and for code, emphasis, images and escaped characters in link texts."
  },
  {
   "property": "C49",
   "status": "partial",
   "theorems": [
    "C49_silent",
    "C49_patch_partial",
    "C49_run_partial",
    "C49_final_newline_refuted",
    "C49_carriage_return_refuted"
   ],
   "note": "For texts whose lines all end in a line feed, with carriage returns only before one; otherwise different files give the same diff (witnesses). The hunks themselves come from the crate similar and are assumed to be correct."
  },
  {
   "property": "C50",
   "status": "partial",
   "theorems": [
    "C50_link_style_partial",
    "C50_heading_link_partial",
    "C50_bracket_refuted",
    "C50_heading_bracket_refuted",
    "C50_heading_angle_refuted"
   ],
   "note": "Every link in paragraph text, and the links of headings with what is written there instead; sources with U+0001 are left out. Text that begins with a bracket behind a link, links side by side in headings and URLs in angle brackets in headings are not written as documented (witnesses)."
  },
  {
   "property": "C51",
   "status": "partial",
   "theorems": [
    "C51_sentence_case_partial",
    "C51_plain_heading",
    "C51_first_word_refuted",
    "C51_emphasis_refuted",
    "C51_acronym_refuted",
    "C51_delimiter_refuted",
    "C51_quotation_first_refuted"
   ],
   "note": "Stretches of text in which no noun of several words stands alone and without U+FFFD. The exact rules are proved; five places where they differ from the documentation are shown with witnesses."
  },
  {
   "property": "C52",
   "status": "partial",
   "theorems": [
    "C52_sentence_case_again_partial",
    "C52_heading_again_partial",
    "C52_capital_s_refuted",
    "C52_long_noun_refuted",
    "C52_decade_refuted",
    "C52_letter_refuted"
   ],
   "note": "Letters with one small and one capital form; nouns that do not end like possessives; texts without nouns of several words, decades and apostrophes before a capital S. Refuted, with witnesses, where these fail."
  },
  {
   "property": "C53",
   "status": "partial",
   "theorems": [
    "C53_spacing_partial",
    "C53_format_partial",
    "C53_front_matter_partial",
    "C53_within_section",
    "C53_before_section",
    "C53_first_line",
    "C53_dense_list",
    "C53_loose_list",
    "C53_item_code_refuted",
    "C53_item_quote_refuted",
    "C53_html_alone_refuted",
    "C53_item_heading_refuted",
    "C53_empty_quote_refuted"
   ],
   "note": "For the documents of C44 (good_document) whose footnotes come last, as comrak puts them, and which have a block that is not HTML. False for documents of HTML alone (they begin with two blank lines), after items that end with headings, for empty quotes, and between blocks of an item that do not follow a paragraph (two blank lines; the exact numbers are in gap_lines), see the refutations."
  },
  {
   "property": "C54",
   "status": "partial",
   "theorems": [
    "C54_pad_ignored",
    "C54_pad_refuted"
   ],
   "note": "The documented effect is false: the setting changes nothing in any document (C54_pad_ignored), and with its default the numbers of a list of ten items do not end in one column (C54_pad_refuted). That texts begin in one column is C27."
  },
  {
   "property": "C55",
   "status": "partial",
   "theorems": [
    "C55_settings_partial",
    "C55_format_partial",
    "C55_details_refuted"
   ],
   "note": "All five sections, every tree. For bullet lists only if lists and the details of description lists do not contain each other (C55_details_refuted: the spaces after bullets decide how a line of an ordered list in details is continued) and items stand in lists, as in every tree of the parser."
  },
  {
   "property": "C57",
   "status": "partial",
   "theorems": [
    "C57_check_after_write",
    "C57_write_again",
    "C57_diff_after_write",
    "C57_documents_partial",
    "C57_check_after_write_refuted"
   ],
   "note": "Exact for every formatter; that formatting twice changes nothing is only known where C45 applies, and a tight list with code in an item is a counterexample."
  },
  {
   "property": "C58",
   "status": "partial",
   "theorems": [
    "C58_neat_partial",
    "C58_no_breaks_partial",
    "C58_wrap",
    "C58_no_breaks_refuted"
   ],
   "note": "Leaves out abbreviations, directives that switch formatting off and the cases for which the examples after C58_no_breaks_refuted show white space at the end of a line: empty items, items that begin with a list, quote or code, details that begin with code, code with blank lines in items in quotes, empty headings, footnotes and addresses, inline HTML and titles over several lines."
  },
  {
   "property": "C60",
   "status": "proved",
   "theorems": [
    "C60_tree",
    "C60_format",
    "C60_empty_lines",
    "C60_final_newline",
    "C60_line_endings"
   ],
   "note": "That the parser finds the same blocks further down is a hypothesis (the parser is not modelled), as is that positions lie within the text. Warnings are the same if the other lines define no abbreviations and no references, which is shown for empty lines."
  },
  {
   "property": "C61",
   "status": "proved",
   "theorems": [
    "C61_answers",
    "C61_invisible",
    "C61_builds",
    "C61_other_languages"
   ],
   "note": "What a formatter returns is arbitrary and may depend on the number of calls made before; where two runs are compared the answers must agree whatever the number. Warnings compared are those that name a line; formatters report without a line."
  },
  {
   "property": "C62",
   "status": "proved",
   "theorems": [
    "C62_files",
    "C62_exit",
    "C62_prints",
    "C62_reports"
   ],
   "note": "Standard input is not among the modes compared (C18). Files are distinct and no write fails; otherwise C19 and C20 apply."
  },
  {
   "property": "C63",
   "status": "proved",
   "theorems": [
    "C63_settings",
    "C63_format"
   ],
   "note": "Settings of whole constructs are in C55, formatters in C61, the width in C59. Text is what the parser hands over: link text or abbreviations taken from the source are never changed by these settings."
  },
  {
   "property": "C64",
   "status": "proved",
   "theorems": [
    "C64_root",
    "C64_format",
    "C64_panics",
    "C64_sound"
   ],
   "note": "The arithmetic that can wrap is that of the two anchors; everything else is modelled with natural numbers and does not underflow (C31)."
  },
  {
   "property": "C65",
   "status": "proved",
   "theorems": [
    "C65_document",
    "C65_heading"
   ],
   "note": "Headings inside other blocks are formatted with the same nouns but are not singled out in the text; footnotes are formatted before any directive is read, so no directive counts in them."
  },
  {
   "property": "C66",
   "status": "proved",
   "theorems": [
    "C66_exact",
    "C66_options",
    "C66_format"
   ],
   "note": "Which references count as undefined is C33; warnings of formatters are about no line and are C21's and C61's subject."
  },
  {
   "property": "C67",
   "status": "proved",
   "theorems": [
    "C67_reported",
    "C67_run",
    "C67_escaped_refuted",
    "C67_unclosed_refuted",
    "C67_code_refuted"
   ],
   "note": "The refutations show that the conditions on escaped and unclosed brackets are needed, and that lines in code count as definitions. That a parser leaves an undefined reference as text is the parser's part."
  },
  {
   "property": "C59",
   "status": "proved",
   "theorems": [
    "C59_words",
    "C59_ink",
    "C59_format"
   ],
   "note": "C59_ink needs only that paragraphs are not blank; with overflow checks one of two runs may panic alone (footnote names wider than the line)."
  },
  {
   "property": "C56",
   "status": "partial",
   "theorems": [
    "C56_parts_partial",
    "C56_beginning_partial",
    "C56_texts_partial",
    "C56_labels_refuted"
   ],
   "note": "Both parts without footnotes; no directive in the first; the last block of the first is not HTML. The label condition cannot be dropped (C56_labels_refuted). C56_texts_partial is for two texts written one after the other, given that the parser finds in the whole the blocks of both."
  },
  {
   "property": "C48",
   "status": "partial",
   "theorems": [
    "C48_says_the_same_partial",
    "C48_prose_says_the_same_partial",
    "C48_links_lead_partial"
   ],
   "note": "Documents as in C44, with inline content as in C46 and C47; for prose (with links and footnote references) without conditions on what is written, except that white space in a paragraph is single spaces and line endings. For a reader that takes its definitions from the output the labels of links to different targets must not read the same (C25 refutes that otherwise), nor like references to footnotes, and URLs must read as they are. Excluded are what C44, C46 and C47 exclude (and refute in places), and sentence case."
  }
 ]
}