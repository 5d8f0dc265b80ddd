{"id": "C01", "title": "Escaped text reads back as the original text", "statement": "For every plain text run, the escaped form written to the output contains no unescaped '*', '_' or '`', every backslash in it is the first half of a two-character escape, and undoing CommonMark backslash escapes yields exactly the original text.", "quantifier": "every string of Unicode scalar values", "why_tests_cant": "Escaping decisions depend on the neighbouring characters; a test set covers a few neighbourhoods, the claim is about every string including runs of backslashes and brackets.", "anchors": ["src/serializer/escape.rs: escape_text"]}
{"id": "C02", "title": "Code spans read back as the original code", "statement": "For every non-empty single-line inline code content (CommonMark readers turn line endings in code into spaces) that neither starts nor ends with a space, the written code span, scanned with the CommonMark code-span rule (opening backtick run, first closing run of equal length, strip one space each side when both present), closes exactly at its end and yields the original content.", "quantifier": "every code content string (arbitrary runs of backticks)", "why_tests_cant": "The delimiter length must beat every backtick run in arbitrary content; tests try only a few run lengths.", "anchors": ["src/serializer/escape.rs: format_code_span"]}
{"id": "C03", "title": "Fenced code blocks read back as the original code", "statement": "For every code block literal and every valid fence configuration, the fenced block written at top level, scanned with the CommonMark fence rule, ends exactly at the written closing fence and contains exactly the literal's lines and the same info string language.", "quantifier": "every literal, info string, fence character and minimum fence length >= 3", "why_tests_cant": "Content may contain fences of any length in any position; only a universally quantified argument shows the chosen fence always wins.", "anchors": ["src/serializer/code.rs: serialize_code_block, serialize_code_block_indented, serialize_code_block_with_indent"]}
{"id": "C04", "title": "Table cells never break the row", "statement": "Whatever a cell contains, after cell escaping it has no pipe that a GFM table reader would treat as a delimiter, existing backslash escapes are kept, and escaping an already escaped cell changes nothing.", "quantifier": "every cell string", "why_tests_cant": "Correctness depends on the parity of backslashes before each pipe; needs all strings.", "anchors": ["src/serializer/escape.rs: escape_table_cell", "src/serializer/table.rs: count_unescaped_pipes"]}
{"id": "C05", "title": "Tables are rectangular and aligned", "statement": "Every line of a written table (header, delimiter row, body rows) has the same display width and the same number of unescaped pipes, equal to the column count plus one.", "quantifier": "every table node: any number of rows, columns, alignments, cell contents, and any display-width function that adds one per ASCII space/dash/pipe appended", "why_tests_cant": "Column widths are maxima over all rows; a test checks a handful of tables.", "anchors": ["src/serializer/table.rs: serialize_table, format_cell_aligned"]}
{"id": "C06", "title": "Wrapping never loses, adds or reorders text", "statement": "Line wrapping changes only whitespace and line prefixes: removing whitespace from the wrapped text, after removing the prefixes it inserted, yields the input with whitespace removed.", "quantifier": "every text, prefix pair and line width", "why_tests_cant": "The tokenizer has several modes (code span, link text, URL) whose interaction over arbitrary text cannot be enumerated.", "anchors": ["src/serializer/wrap.rs: wrap_text, wrap_text_first_line, wrap_single_segment"]}
{"id": "C07", "title": "Wrapped lines respect the line width", "statement": "Every line produced by wrapping a paragraph is at most line_width columns wide (prefix included) unless the line holds a single unbreakable token.", "quantifier": "every text, prefix pair and line width, any additive display width function", "why_tests_cant": "Greedy filling must be right at every boundary for all word-length sequences.", "anchors": ["src/serializer/wrap.rs: wrap_text, wrap_text_first_line, wrap_single_segment, add_token_to_line_with_prefix"]}
{"id": "C08", "title": "Intentional short lines and hard breaks survive wrapping", "statement": "If every line of a paragraph segment already fits the width, its line structure is kept verbatim, and hard line breaks are never merged away nor invented by wrapping.", "quantifier": "every text, prefix, line width", "why_tests_cant": "Needs all combinations of line lengths and break markers.", "anchors": ["src/serializer/wrap.rs: wrap_text, wrap_text_segment, wrap_text_first_line_segment"]}
{"id": "C09", "title": "Ellipsis conversion touches exactly three-dot runs", "statement": "With ellipsis on, a run of exactly three periods becomes one ellipsis character and a run of four or more periods is preserved as is (as documented); all other characters are unchanged; applying the conversion twice equals applying it once.", "quantifier": "every string", "why_tests_cant": "Run-length behaviour for unbounded runs; tests use runs of 2 to 4.", "anchors": ["src/serializer/punctuation.rs: transform_ellipsis", "STYLE.md: Ellipsis"]}
{"id": "C10", "title": "Dash conversion is complete, safe and idempotent", "statement": "With a multi-character dash pattern the converted text contains no further occurrence of the pattern and re-conversion changes nothing; with a single-character pattern only occurrences surrounded by whitespace are converted, so no hyphenated word is ever changed; when both em and en patterns are configured with different patterns each one is reachable.", "quantifier": "every text and every valid pattern pair", "why_tests_cant": "Overlapping and adjacent matches are unbounded.", "anchors": ["src/serializer/punctuation.rs: transform_dashes, validate_dash_settings, transform_punctuation"]}
{"id": "C11", "title": "Quote conversion changes only quote characters", "statement": "Curly quote and apostrophe conversion preserves the number of characters and every character that is not a straight quote; a straight double quote becomes a left or right double quote, a straight single quote stays or becomes a left or right single quote; with the option off the text is unchanged.", "quantifier": "every text and option combination", "why_tests_cant": "The single-quote scanner is stateful with lookahead; only a proof covers all strings.", "anchors": ["src/serializer/punctuation.rs: transform_double_quotes, transform_single_quotes, transform_apostrophes, transform_punctuation"]}
{"id": "C12", "title": "Quote conversion is idempotent", "statement": "Converting punctuation in text that was already converted changes nothing (curly double quotes, single quotes, apostrophes).", "quantifier": "every text and option combination", "why_tests_cant": "Idempotence under --check after --write must hold for every document, not for examples.", "anchors": ["src/serializer/punctuation.rs: transform_punctuation"]}
{"id": "C13", "title": "Conflicting dash settings are rejected", "statement": "Settings whose em dash and en dash patterns are equal are rejected before any file is read or written by the CLI, every other combination is accepted, and no entry point (CLI or JavaScript) formats with conflicting patterns.", "quantifier": "every pair of dash settings", "why_tests_cant": "Covers every pair of patterns.", "anchors": ["src/serializer/punctuation.rs: validate_dash_settings", "src/main.rs: main", "src/wasm.rs: to_options"]}
{"id": "C14", "title": "Configuration values are accepted exactly in their documented ranges", "statement": "Line width >= 8, leading spaces 0..3, trailing spaces 0..3, indent width >= 1, minimum fence length >= 3, dash patterns non-empty printable ASCII: a value is accepted if and only if it lies in the documented range and is then stored unchanged.", "quantifier": "every natural number / every string", "why_tests_cant": "Boundary exactness over unbounded domains.", "anchors": ["src/config.rs: LeadingSpaces, TrailingSpaces, IndentWidth, LineWidth, MinFenceLength, DashPattern"]}
{"id": "C15", "title": "Accepted thematic break styles are CommonMark thematic breaks", "statement": "Every thematic break style the configuration accepts, written with the configured leading spaces, is a valid CommonMark thematic break line.", "quantifier": "every style string and every leading-space setting", "why_tests_cant": "The validator counts markers; mixed strings are a combinatorial space.", "anchors": ["src/config.rs: ThematicBreakStyle::new", "src/serializer/document.rs: serialize_thematic_break"]}
{"id": "C16", "title": "Configuration cascade precedence", "statement": "For every setting the effective value comes from the highest-priority configuration that sets it (project over platform user over legacy user over system over built-in default); a project configuration with no_inherit hides all others; an explicit --config file bypasses the cascade.", "quantifier": "every subset of existing config files and every assignment of settings", "why_tests_cant": "Number of combinations of layers and settings is exponential.", "anchors": ["src/config.rs: ConfigLayer::merge_over, Config::load_cascading", "src/main.rs: load_config"]}
{"id": "C17", "title": "Project configuration is the nearest ancestor's", "statement": "Configuration discovery returns the configuration file in the start directory or the closest ancestor that has one, and nothing when no ancestor has one.", "quantifier": "every directory path and every file system content", "why_tests_cant": "Arbitrary depth and arbitrary placement.", "anchors": ["src/config.rs: Config::discover, discover_project_config"]}
{"id": "C18", "title": "Check mode never modifies files and reports truthfully", "statement": "With --check (or --diff, or plain printing) no file content changes; --check exits non-zero iff some input file differs from its formatted form or could not be processed.", "quantifier": "every set of files, every formatting function, every interleaving of worker threads", "why_tests_cant": "Races between workers and unbounded sets of files.", "anchors": ["src/main.rs: main, process_files_parallel, process_files_sequential, process_files_diff"]}
{"id": "C19", "title": "Write mode writes exactly the changed files", "statement": "With --write, after all workers finish each readable file holds its formatted text, files already formatted are not written at all, no other path is touched, and the result does not depend on the worker schedule.", "quantifier": "every set of distinct files, every formatting function, every interleaving", "why_tests_cant": "Schedules cannot be enumerated by tests.", "anchors": ["src/main.rs: process_files_parallel"]}
{"id": "C20", "title": "A crash during --write never loses a file", "statement": "At every crash point during --write each file holds either its complete original or its complete formatted content.", "quantifier": "every crash point of every schedule", "why_tests_cant": "Crash points are not exercised by unit tests.", "anchors": ["src/main.rs: process_files_parallel (fs::write)"]}
{"id": "C21", "title": "A failing external formatter never loses code", "statement": "Whenever the configured external formatter for a block's language fails in any way (cannot start, non-zero exit, timeout, invalid UTF-8, empty command, ...), the block's original code is written unchanged and a warning with the block's line is recorded; blocks without a matching formatter or marked hongdown-no-format never invoke a formatter.", "quantifier": "every code block, formatter table and formatter behaviour", "why_tests_cant": "Formatter behaviour is an arbitrary external function.", "anchors": ["src/serializer/code.rs: try_format_code, parse_code_info, serialize_code_block", "src/serializer/formatter.rs: run_formatter"]}
{"id": "C22", "title": "External formatter runs are bounded by the timeout", "statement": "For every external formatter process behaviour, running it returns within the configured timeout plus one polling interval, with the formatter's complete output if it exited successfully in time.", "quantifier": "every process behaviour (reads, writes, exit time) and every input/output size", "why_tests_cant": "Process behaviours and pipe capacities cannot be enumerated by tests.", "anchors": ["src/serializer/formatter.rs: run_formatter"]}
{"id": "C23", "title": "Disabled regions are emitted verbatim", "statement": "Every block inside a hongdown-disable ... hongdown-enable region, after disable-next-line, or in a disable-next-section section is written byte for byte as it stands in the source and none of its links, footnotes or text influence formatting of that block.", "quantifier": "every document tree, source text and placement of directives", "why_tests_cant": "Directive placements and block kinds combine unboundedly.", "anchors": ["src/serializer/document.rs: serialize_document", "src/serializer/state.rs: FormatSkipMode, Directive::parse, extract_source"]}
{"id": "C24", "title": "disable-file preserves the rest of the file", "statement": "After a disable-file directive the remaining source lines are written unchanged, up to line terminators.", "quantifier": "every document and every directive position", "why_tests_cant": "Arbitrary documents.", "anchors": ["src/serializer/document.rs: serialize_document", "src/serializer/state.rs: extract_source_from_line"]}
{"id": "C25", "title": "Every reference used has exactly one definition", "statement": "Every reference-style link or image label written in formatted text has its definition (label, URL, title) written exactly once in the document, and links written with the same label point to the same URL as before formatting.", "quantifier": "every document tree and option set", "why_tests_cant": "Interaction of sections, flush points and label collisions over arbitrary documents.", "anchors": ["src/serializer/mod.rs: flush_references", "src/serializer/state.rs: add_reference", "src/serializer/link.rs: format_external_link_as_reference"]}
{"id": "C26", "title": "Every footnote definition is written exactly once", "statement": "Each footnote definition of the document appears exactly once in the output, never before the first section that references it, and never twice.", "quantifier": "every document tree", "why_tests_cant": "Footnotes may be referenced from several sections and before or after directives.", "anchors": ["src/serializer/mod.rs: flush_footnotes_before", "src/serializer/state.rs: FootnoteSet"]}
{"id": "C27", "title": "Ordered list numbering and marker alignment", "statement": "Items of an ordered list are numbered consecutively in document order; every marker of one list has the same total width so that item texts start at the same column; the delimiter depends only on the parity of nesting level.", "quantifier": "every list length, nesting depth and option set", "why_tests_cant": "List lengths cross digit boundaries without bound.", "anchors": ["src/serializer/list.rs: calculate_marker_width, serialize_list, serialize_list_item"]}
{"id": "C28", "title": "Formatting context is restored after every container", "statement": "Serializing any block or inline node leaves the formatter's context (quote prefix, list nesting, indentation, item counter) exactly as it was, so no container influences how its following siblings are formatted.", "quantifier": "every document tree, every initial context", "why_tests_cant": "A leak could appear for any nesting of containers.", "anchors": ["src/serializer/block.rs", "src/serializer/list.rs", "src/serializer/document.rs", "src/serializer/mod.rs: serialize_node"]}
{"id": "C29", "title": "Headings keep their level and underlines match the width", "statement": "A level 1/2 heading written in Setext form has an underline of '=' / '-' exactly as wide as the heading text's display width; all other headings are written with exactly level many '#'.", "quantifier": "every heading text, level and option set, every width function", "why_tests_cant": "All texts including wide characters.", "anchors": ["src/serializer/document.rs: serialize_heading"]}
{"id": "C30", "title": "Sentence case preserves code spans and letters", "statement": "Sentence-case conversion never changes the content of code spans, and changes nothing but letter case and quotation mark shape elsewhere.", "quantifier": "every heading text, proper noun and common noun lists", "why_tests_cant": "Tokenization, placeholder substitution and proper noun matching interact over arbitrary text.", "anchors": ["src/serializer/heading.rs: to_sentence_case"]}
{"id": "C31", "title": "Formatting always terminates without panicking", "statement": "Formatting any document with any valid options terminates and returns a result; it never panics (no out-of-range slice, no integer underflow).", "quantifier": "every document tree, source text and option set", "why_tests_cant": "Panics hide in rare combinations (long footnote names, narrow widths, source positions).", "anchors": ["src/lib.rs: format, format_with_warnings", "src/serializer/state.rs: safe_str_slice, extract_source", "src/serializer/mod.rs: write_footnote", "src/serializer/heading.rs: replace_multiword_with_placeholders"]}
{"id": "C32", "title": "Source extraction returns the exact source lines", "statement": "Extracting a block's source returns exactly the characters of the source between its start and end positions (inclusive), for any valid source position, and never panics whatever the position.", "quantifier": "every source text and every line/column quadruple", "why_tests_cant": "Positions are byte offsets into multi-byte text; boundary cases are unbounded.", "anchors": ["src/serializer/state.rs: extract_source, safe_str_slice, extract_source_from_line"]}
{"id": "C33", "title": "Undefined-reference warnings respect disabled regions", "statement": "No undefined-reference or table warning is ever reported for a line inside a disabled region, and every reported warning points at a line of the source where the text occurs.", "quantifier": "every document tree and directive placement", "why_tests_cant": "Combinations of directives and reference patterns.", "anchors": ["src/serializer/document.rs: check_undefined_references_ast, collect_disabled_line_ranges, is_line_in_disabled_ranges"]}
{"id": "C34", "title": "JavaScript options can never produce an invalid configuration", "statement": "Whatever numbers and strings a JavaScript caller passes, the resulting options satisfy the same range constraints as the configuration file, and unspecified or invalid values equal the documented defaults.", "quantifier": "every JsOptions value", "why_tests_cant": "Untrusted input of unbounded range.", "anchors": ["src/wasm.rs: JsOptions::to_options, JsDashSetting::to_dash_setting"]}
{"id": "C35", "title": "Directives are recognised exactly", "statement": "An HTML comment is treated as a formatting directive if and only if its trimmed body is one of the documented directive forms; proper-noun and common-noun lists are exactly the comma separated trimmed non-empty entries.", "quantifier": "every HTML block string", "why_tests_cant": "All strings.", "anchors": ["src/serializer/state.rs: Directive::parse"]}
{"id": "C36", "title": "Reference and footnote sections are ordered and stable", "statement": "When a section ends with two or more numeric labels pending (\"12\" or \"#12\"), its definitions are written with the non-numeric ones first in order of first use and then the numeric ones in ascending numeric order (ties in order of first use); with fewer numeric labels all are written in order of first use. No definition is lost or duplicated by the ordering.", "quantifier": "every set of pending references", "why_tests_cant": "Orders over arbitrary sets.", "anchors": ["src/serializer/mod.rs: flush_references, extract_numeric_label"]}
{"id": "C37", "title": "Directory arguments expand to exactly the Markdown files", "statement": "Expanding a directory argument yields exactly the files below it whose extension is md or markdown in any letter case, each once and sorted by path, and file arguments are passed through unchanged. Without path arguments the files are all regular files the walker finds for the configured patterns, sorted, independent of the order in which it finds them; an error of the walker is an error of the run.", "quantifier": "every directory tree and argument list", "why_tests_cant": "Arbitrary trees.", "anchors": ["src/main.rs: expand_paths, collect_md_files", "src/config.rs: collect_files"]}
{"id": "C38", "title": "Emphasis delimiters follow the text and the source", "statement": "Emphasis whose text contains a literal asterisk is always written with '_'; otherwise the delimiter is '_' exactly when the source used '_', else '*'; opening and closing delimiters are always the same, and likewise for strong emphasis with doubled delimiters.", "quantifier": "every inline tree", "why_tests_cant": "Arbitrary nesting.", "anchors": ["src/serializer/state.rs: emphasis/strong delimiters, node_text_contains_char"]}
{"id": "C39", "title": "Code is never altered by punctuation or sentence-case settings", "statement": "The content of code spans and code blocks written to the output is independent of all punctuation options.", "quantifier": "every document tree and every pair of option sets differing only in punctuation settings", "why_tests_cant": "A relational (two-run) property over all documents.", "anchors": ["src/serializer/inline.rs: collect_inline_node", "src/serializer/code.rs"]}
{"id": "C40", "title": "Files end with exactly one newline", "statement": "Formatting a non-empty document without disable directives produces text ending in exactly one newline.", "quantifier": "every document tree and option set", "why_tests_cant": "Any block kind may come last.", "anchors": ["src/serializer/document.rs: serialize_document", "STYLE.md: Trailing newline"]}
{"id": "C41", "title": "Plain text never turns into a link", "statement": "When a plain-text run is written out, reading the output as CommonMark never yields an inline link that the input text did not contain.", "quantifier": "every plain-text string", "why_tests_cant": "Bracket nesting and adjacency combine without bound; a handful of escaped samples cannot cover the interplay of nested brackets and parentheses.", "anchors": ["src/serializer/escape.rs: escape_text"]}
{"id": "C42", "title": "Text reads back as the same text", "statement": "A text node is written as text that a CommonMark reader reads as the same characters, with the escapes and character references of the source kept and every other special character escaped.", "quantifier": "every text, source spelling, position and option set that leaves the punctuation of the text alone", "why_tests_cant": "Escapes, entities and special characters can follow each other in any order; the source is followed by a cursor whose mistakes show only in long combinations.", "anchors": ["src/serializer/inline.rs: escape_text_preserving_source"]}
{"id": "C43", "title": "Wrapping a paragraph leaves a paragraph", "statement": "However its lines are broken, a wrapped paragraph is read by a CommonMark reader as one paragraph with the same words between the same hard line breaks: no line of it becomes a list item, quote, heading, rule, code block, table or link definition, also inside block quotes and list items.", "quantifier": "every text none of whose words could begin a block, every width, every nesting depth of quotes and every list marker", "why_tests_cant": "Which word comes first on a line depends on the width and on all words before it; only a proof over all layouts excludes every accident.", "anchors": ["src/serializer/wrap.rs: wrap_text, wrap_text_first_line", "src/serializer/document.rs: serialize_paragraph"]}
{"id": "C44", "title": "A formatted document has the same blocks", "statement": "The formatted text is read by a CommonMark reader (with alerts, tables, description lists and footnotes) as the same nested blocks the document had: the same paragraphs with the same words, the same headings, rules and code, the same quotes and alerts, lists of the same kind with the same items and task marks, tables with the same alignments and cells, the same HTML blocks, description lists with the same terms and details, the same footnotes with the same text, and the same front matter; the link definitions it finds are those that were written out, with their labels, URLs and titles. Everything but the footnotes keeps its order.", "quantifier": "every document tree of these blocks nested without bound, every option set, width, code formatter, link definition the text uses and footnote it refers to", "why_tests_cant": "Whether a line keeps its meaning depends on every quote and list around it, on what is written before and after it and on the options; nesting is unbounded.", "anchors": ["src/serializer/document.rs: serialize_document, serialize_paragraph", "src/serializer/list.rs: serialize_list, serialize_list_item", "src/serializer/block.rs: serialize_block_quote, serialize_alert", "src/serializer/code.rs: serialize_code_block"]}
{"id": "C45", "title": "Formatting twice changes nothing", "statement": "What was formatted is formatted to itself: a wrapped paragraph read back from its lines is wrapped to the same lines, and a formatted document read back is written as the same text.", "quantifier": "every text, line width, first-line and continuation prefix, position of hard and soft line breaks, and every document", "why_tests_cant": "Whether a second run moves a word depends on the width of every word, link and code span before it; the test suite formats a few samples twice.", "anchors": ["src/serializer/wrap.rs: wrap_text, wrap_text_first_line, wrap_single_segment", "src/serializer/list.rs: serialize_list, serialize_list_item"]}
{"id": "C46", "title": "Inline content reads back as what it was", "statement": "Text with emphasis, strong emphasis, links and images nested in any way, mixed with code spans, line breaks, inline HTML and footnote references, is written so that a CommonMark reader finds the same emphasis around the same characters, the same code, and links with the same text to the same URLs with the same titles.", "quantifier": "every tree of inline nodes, every source spelling and option set, every set of link definitions and footnotes, every classification of white space and punctuation", "why_tests_cant": "Whether a delimiter opens or closes depends on the characters on both sides and on all delimiters before it, whether brackets are a link on what follows them and on all definitions; nesting is unbounded and the choice of '*' or '_' and of the form of a link depends on the text and the source.", "anchors": ["src/serializer/inline.rs: collect_inline_node", "src/serializer/link.rs: format_inline_link, format_autolink, format_external_link_as_reference, format_reference_link", "src/serializer/state.rs: get_emphasis_delimiter, get_strong_delimiter, node_text_contains_char"]}
{"id": "C47", "title": "A heading keeps what it says", "statement": "A heading is written so that it reads as a heading of its level with the inline content it had: the same characters, code, emphasis, links, images, footnote references, inline HTML and breaks between words.", "quantifier": "every heading level, inline tree, source spelling and option set without sentence case", "why_tests_cant": "Headings are collected by a function of their own that names the node kinds it writes; kinds and nestings it forgets show only on inputs that have them.", "anchors": ["src/serializer/document.rs: serialize_heading", "src/serializer/inline.rs: collect_text_recursive", "src/serializer/inline.rs: collect_raw_text"]}
{"id": "C48", "title": "A formatted document says what it said", "statement": "The output of format_with_warnings reads, block by block and inside paragraphs, headings, table cells and footnotes inline by inline, as the document that was parsed: the same quotes, alerts, lists and items around the same headings, code, tables and paragraphs, and in these the same characters, code spans, emphasis and links. Links written with a label find their own URL and title in the definitions of the output, footnote references their footnotes.", "quantifier": "every document tree, source, option set and code formatter result; every classification of white space and punctuation", "why_tests_cant": "Block structure and inline structure are written by different parts of the serializer and interact: lines are wrapped inside quotes and items, so that a mark at the end of a line may move to the start of another; both nest without bound.", "anchors": ["src/lib.rs: format_with_warnings", "src/serializer/mod.rs: serialize_node", "src/serializer/inline.rs: collect_inline_node", "src/serializer/wrap.rs: wrap_text_first_line"]}
{"id": "C49", "title": "The printed diff is a patch", "statement": "With --diff nothing is printed for a file that is already formatted; for any other file the printed text, read as a unified diff, turns the content of the file into its formatted form, with every context line, line count and position right. A run over several files prints one such part for each, in order.", "quantifier": "every pair of texts, file name and list of files; every correct set of hunks the diff library may find", "why_tests_cant": "A diff is a program for patch; that it always rebuilds the output is a statement about all pairs of texts and all ways of splitting them into hunks.", "anchors": ["src/main.rs: print_diff, process_files_diff"]}
{"id": "C50", "title": "Links are written in the documented style", "statement": "A link in the text of a document is written as the style guide says: a link that was a reference keeps its text and label, without the label where it is the text; a link that is its own URL stands in angle brackets; other external URLs become references whose definition is recorded, collapsed where a bracket follows; relative URLs and links around an image keep their URL in place.", "quantifier": "every link, at any place in any inline tree, every source spelling, URL, title and text", "why_tests_cant": "The form depends on the source spelling, the URL, the text, the title, what is nested in the link and what follows it; the test suite tries single combinations.", "anchors": ["src/serializer/inline.rs: collect_inline_node_with_context", "src/serializer/inline.rs: collect_text_recursive", "src/serializer/link.rs: format_link, format_reference_link"]}
{"id": "C51", "title": "Sentence case changes each word as documented", "statement": "With sentence case on, a heading keeps its code spans, words in capitals, acronyms, the pronoun I and proper nouns (as the user or the built-in list spells them, with punctuation and possessive endings around them); every other word is written in lower case, the first one of the heading and of each quotation that begins with a capital with a capital letter; hyphenated and slashed words are changed part by part; words behind a delimiter keep their capital; straight quotation marks are turned by what stands on both sides.", "quantifier": "every heading text, list of user nouns, common nouns and built-in nouns, every Unicode database in which 's' is a letter and the period none", "why_tests_cant": "Each word is decided by eight rules in order and by what came before it in the heading; quotations nest; the built-in list has hundreds of entries.", "anchors": ["src/serializer/heading.rs: to_sentence_case, process_text, process_word, process_word_simple, find_proper_noun, normalize_quotes, process_quoted_text"]}
{"id": "C52", "title": "A heading in sentence case stays as it is", "statement": "Putting a heading that already is in sentence case into sentence case again changes nothing, so that formatting a formatted heading writes the same text with the same underline.", "quantifier": "every heading text, every list of user nouns, common nouns and built-in nouns, every Unicode database whose letters have one small and one capital form", "why_tests_cant": "The second run meets words, quotation marks and nouns that the first one wrote, so every combination of the rules has to agree with itself; the tests format headings once.", "anchors": ["src/serializer/heading.rs: to_sentence_case, process_text, process_word, process_word_simple, find_proper_noun, normalize_quotes, process_quoted_text", "src/serializer/block.rs: serialize_heading"]}
{"id": "C53", "title": "Blocks are set apart by the documented blank lines", "statement": "In a formatted document two blocks are separated by exactly one blank line, and a section heading (level 2) that does not follow a heading is preceded by exactly two. Where a section ends, its footnotes, its link definitions and the link definitions of its footnotes follow in this order, each group after one blank line; they stand only before headings of level 2 or 3 and at the end. HTML blocks that end the document come last, after one blank line. Inside a quote or an alert there is one blank line (with the mark) between two blocks; the items of a tight list have none between them and those of a loose list have one; a list whose items are paragraphs, or paragraphs with such lists directly below, has none at all. The document does not begin with a blank line.", "quantifier": "every document of the kind of C44 with at least one block that is not HTML, every source text, option set with markers of four columns, sets of references and footnotes, formatter results", "why_tests_cant": "The blank lines come from four places (the separator, the flush of notes and definitions, the trailing HTML and the blocks themselves) and every pair of block kinds meets with every state of the pending notes and definitions; tests check a few pairs.", "anchors": ["src/serializer/document.rs: serialize_document, output_trailing_html_blocks", "src/serializer/mod.rs: ensure_blank_line, flush_references, flush_footnotes_before", "src/serializer/list.rs: serialize_list_item", "src/serializer/block.rs: serialize_block_quote, serialize_alert", "STYLE.md: Spacing"]}
{"id": "C54", "title": "The padding setting of ordered lists", "statement": "With ordered_list.pad = \"start\" (the default) the numbers of an ordered list are padded in front so that they end in one column; with \"end\" they are padded behind. (False: the setting is read nowhere, and the numbers are always padded behind.)", "quantifier": "every input, parse tree, Unicode database, formatter results and pair of option sets that differ in this setting only", "why_tests_cant": "That a setting has no effect on any document cannot be seen from examples; no test uses the setting.", "anchors": ["src/config.rs: OrderedListPad", "src/serializer/list.rs: serialize_list_item", "src/lib.rs: Options::ordered_list_pad"]}
{"id": "C55", "title": "A section of the configuration governs only its construct", "statement": "The settings of [heading], [unordered_list], [ordered_list], [code_block] and [thematic_break] change nothing in a document in which there is no heading, no bullet list, no ordered list, no code block or no thematic break: the output and the warnings are the same for any two option sets that differ only in that section.", "quantifier": "every parse tree and source text, Unicode database, formatter results, built-in nouns, pair of option sets that differ in one section only", "why_tests_cant": "It speaks of all pairs of option sets on all documents; the serializer reads its options in some thirty places, with widths shared between lists, paragraphs and code.", "anchors": ["src/serializer/mod.rs: serialize_node", "src/serializer/block.rs", "src/serializer/code.rs: serialize_code_block", "src/serializer/list.rs: serialize_list_item", "src/serializer/document.rs: serialize_paragraph, serialize_heading, serialize_thematic_break, serialize_description_details", "src/serializer/code.rs", "src/lib.rs: Options"]}
{"id": "C56", "title": "A document is formatted section by section", "statement": "When a document goes on with a heading of level 2 or 3, its output is the output of what stands before, then the separation (one empty line, two before a level 2 heading that does not follow a heading, none after front matter), then the output of the rest as if it stood alone: the list depth, the quote prefix, the skip mode, pending references and what was written before have no influence on a later section. It presupposes that no label defined before is used again in the section, and that there are no directives before it.", "quantifier": "every pair of parse trees (in one source text, or of two texts written one after the other) of which the second begins with a level 2 or 3 heading, option set, Unicode database, code formatter whose answer does not depend on when it is asked", "why_tests_cant": "It compares the whole output of three runs for every pair of documents. A state that leaks from one block into the next shows only for particular pairs.", "anchors": ["src/serializer/document.rs: serialize_document, find_trailing_html_blocks", "src/serializer/mod.rs: flush_references, flush_footnotes_before, ensure_blank_line", "src/serializer/state.rs: Serializer"]}
{"id": "C57", "title": "--check agrees with what --write left", "statement": "After a run with --write that succeeded, a run with --check on the same files succeeds exactly if formatting what was written for each file gives it again; the same decides whether a second run with --write writes anything and whether --diff prints anything. Where formatting twice changes nothing (C45) all three are quiet.", "quantifier": "every formatter, file system, list of distinct files, schedule of the workers and sizes of the pieces written", "why_tests_cant": "The claim relates two runs of the program for every file system and schedule; tests run a few files in one process.", "anchors": ["src/main.rs: process_files_parallel, process_files_diff, print_diff", "src/main.rs: main"]}
{"id": "C58", "title": "Lines do not end in white space", "statement": "No line of a formatted document ends in white space, except that a hard line break is written as two spaces after something visible; and the document itself ends in a newline or something visible. Where words are wrapped, however narrow the lines, no line is blank or ends in a space.", "quantifier": "every document whose words are not blank, whose items begin with words, whose headings and footnotes are not empty and whose code has no white space at the ends of its lines; every option, formatter and line width; every nesting of quotes, alerts, lists and description lists", "why_tests_cant": "Prefixes of quotes, markers of items, indents of code and footnotes, and pieces of wrapped words are written in some thirty places; whether one of them leaves a space at the end of a line depends on how the blocks are nested and where lines happen to break, so examples cover few of the combinations.", "anchors": ["src/serializer/mod.rs: serialize_node", "src/serializer/block.rs", "src/serializer/code.rs: serialize_code_block", "src/serializer/list.rs: serialize_list_item", "src/serializer/wrap.rs: wrap_text_first_line, wrap_single_segment", "src/serializer/document.rs", "src/serializer/table.rs"]}
{"id": "C59", "title": "The line width only decides where lines end", "statement": "Formatting a document with two different line widths gives the same words in the same order (in documents with quotes, > signs count as white space: a quote of more lines has more marks); the warnings are the same, and the same code blocks are given to the same formatters. Without overflow checks neither run panics unless the other does.", "quantifier": "every document whose paragraphs are as parsers leave them (no blank source lines, no white space around them); every pair of line widths, every other option, every formatter; with and without quotes, footnotes, lists, tables, description lists and directives", "why_tests_cant": "The width left for a line is computed from the prefix, marker or indent in some ten places and carried in the state of the serializer while nested blocks are written; that it never reaches anything but the choice of line ends is a statement about pairs of runs, for all widths.", "anchors": ["src/config.rs: Config.line_width", "src/serializer/wrap.rs", "src/serializer/mod.rs: serialize_node", "src/serializer/block.rs", "src/serializer/list.rs", "src/serializer/document.rs"]}
{"id": "C60", "title": "Where a text stands in its file does not matter", "statement": "Lines before or after a document in which the parser finds no blocks change nothing in what is written: if the parser finds the same blocks k lines further down, format_with_warnings returns the same text, makes the same formatter calls and returns the same warnings in the same order with every line number (and the table line inside messages) greater by k; warnings without a line stay without. For empty lines in front this holds unconditionally; for other lines the warnings presuppose that they define no abbreviations or reference labels, and for lines after that there is no disable-file directive. A newline added at the end of a document that does not end in a newline or carriage return changes neither text nor warnings (no disable-file directive). Nor does it matter whether lines end in LF or in CR LF, if the parser finds the same document in both.", "quantifier": "every parse tree with positions inside its text, every text before and after, option set, Unicode database, formatter and its behaviour", "why_tests_cant": "Line numbers are used in many places (slices of the source, flushing footnotes before a section, blank lines between list items, alerts, disabled ranges, warnings). An absolute number where a difference is meant shows only for particular positions.", "anchors": ["src/serializer/state.rs: extract_source, extract_source_from_line, FootnoteSet", "src/serializer/document.rs: serialize_document, check_undefined_references_ast, collect_disabled_line_ranges, is_escaped_in_source", "src/serializer/table.rs: check_table_source_columns", "src/serializer/list.rs: serialize_list_item", "src/serializer/block.rs: serialize_alert", "src/serializer/mod.rs: flush_footnotes_before, flush_footnote_references_before", "src/lib.rs: format_with_warnings"]}
{"id": "C61", "title": "Formatters matter only by the code they return", "statement": "If, for every fenced or indented code block of the document that a formatter is asked about, two configurations (commands per language in the native build, callback in the WebAssembly build) return the same code in the end - a failing, missing or declining formatter counting as returning the block's own code - then format_with_warnings returns the same text in both, and the same warnings apart from those of the formatters themselves. In particular: commands that fail or return their input give the output without any formatter; the WebAssembly build with a callback that returns what the commands return writes what the native build writes; and commands configured for languages in which no block is asked do not matter.", "quantifier": "every parse tree, source text, option set, pair of formatter tables, pair of builds and environments (every answer at every call), Unicode database", "why_tests_cant": "Failures, time-outs and call orders of external programs are states of the environment, and the two builds are never run on the same inputs by the tests; an effect of a failed or refused formatter on anything but its block (state, later blocks, footnotes, fences) would appear only in particular documents.", "anchors": ["src/serializer/code.rs: try_format_code, parse_code_info, serialize_code_block, serialize_code_block_indented, serialize_code_block_with_indent", "src/serializer/list.rs: serialize_list_item", "src/serializer/document.rs: serialize_description_details", "src/lib.rs: format_with_warnings", "src/wasm.rs: format_with_code_formatter"]}
{"id": "C62", "title": "All ways of running agree on the formatted text", "statement": "For the same arguments the run without flags, --diff, --check and --write process the same files. From the same files: the run without flags and --diff fail exactly if --write does (as long as the disk accepts the writes); what a run without flags prints is the concatenation, in order, of what --write leaves in the files; --check reports a difference exactly if --write changes some file, and exactly if --diff prints something; and --write prints the names of exactly the files it changes.", "quantifier": "every file system, list of distinct files, formatter function, diff algorithm, interleaving of the parallel workers and size of partial writes", "why_tests_cant": "The three modes are separate loops (sequential, sequential with diff, parallel with shared flags); their agreement is a statement about pairs of runs, for all schedules and file contents.", "anchors": ["src/main.rs: main, process_files_parallel, process_files_sequential, process_files_diff, print_diff"]}
{"id": "C63", "title": "Each single setting matters only where something is what it is about", "statement": "If two sets of options differ only in some of the following settings, and for each of these the document holds nothing it is about, then the runs agree in everything: output, warnings, formatter calls, and whether there is a panic. setext_h1 is about headings of level 1 and setext_h2 about those of level 2; sentence_case about headings; the lists of proper and common nouns about headings, and only if sentence_case is on; default_language about code blocks whose info string is blank; curly double quotes about texts with \", curly single quotes and apostrophes about texts with '; ellipsis about texts with \"...\"; the em dash about texts in which its pattern stands, and the en dash likewise, as long as its pattern holds no em dash.", "quantifier": "every tree, source, pair of option sets differing in any subset of the twelve settings, back end for formatters and both kinds of integer arithmetic", "why_tests_cant": "Agreement of pairs of runs for all documents without a construct; the punctuation steps run one after another, so that a later step must not find what an earlier one made.", "anchors": ["src/lib.rs: Options", "src/serializer/punctuation.rs: transform_punctuation", "src/serializer/document.rs: serialize_heading", "src/serializer/code.rs: serialize_code_block", "README.md:181-253"]}
{"id": "C64", "title": "Builds with and without overflow checks agree", "statement": "If a build with overflow checks (debug) formats an input without a panic, a build without them (release) gives the same output, the same warnings and the same formatter calls; so a release build panics only where a debug build does. For inputs whose items stand in lists, without backward or zero positions and whose plain footnotes have labels that fit the line width, the two builds do the same.", "quantifier": "every tree, source, option set and back end for formatters", "why_tests_cant": "Tests run one build; agreement of two builds on all inputs is a statement about every subtraction that can wrap.", "anchors": ["src/serializer/mod.rs: write_footnote", "src/serializer/document.rs: collect_disabled_line_ranges", "src/lib.rs: format_with_warnings"]}
{"id": "C65", "title": "Nouns named in directives count like configured ones, for the headings after them", "statement": "In every document, a top-level heading that is formatted is written exactly as it is by itself under the same options with the nouns of all proper-noun and common-noun directives before it put after the configured ones, in order and each kind with its kind. So nouns named after a heading, or in a comment that is no directive, do not matter to it, and directives change nothing else: the text is still its blocks in order, as for C23 and C24.", "quantifier": "every document without a document in it, every option set, entity table, source and back end; any number and order of directives", "why_tests_cant": "Tests try single directives; that they accumulate in order through flushes, footnotes, disabled regions and nested blocks is about every sequence of blocks.", "anchors": ["src/serializer/document.rs: serialize_document", "src/serializer/state.rs: Directive::parse", "src/serializer/document.rs: serialize_heading"]}
{"id": "C66", "title": "Which warnings a run gives, whatever the options", "statement": "The warnings of a run that are about a line of the source are, in this order: those about undefined references, one for each line of a table in a footnote that has too few or too many pipes for its columns, and one for each such line of a table in any other block that is formatted; nothing else. Tables in blocks kept by directives give none, and lines of nothing but pipes, dashes, colons and spaces give none. So two runs on the same document that both end normally give the same warnings about lines, whatever the options, the formatters, the words and entities known and the way of running; and when no formatter is configured in either, they give the same warnings altogether, message by message and in the same order.", "quantifier": "every document without a document in it, every source, and every pair of option sets, formatters, word and entity tables and back ends; for the exact list, every such document whose top-level blocks stand in the source where their positions say", "why_tests_cant": "Tests look at a few warnings under one set of options; that no option, width, marker or nesting adds, drops, repeats or reorders one is about every pair of runs.", "anchors": ["src/serializer/table.rs: check_table_source_columns", "src/serializer/document.rs: serialize_document", "src/lib.rs: format_with_warnings"]}
{"id": "C67", "title": "Undefined references are reported", "statement": "Whenever the text of a document, anywhere outside code and HTML, has a reference in brackets whose label no line of the source defines or abbreviates, the run warns about it with its label and the line of the text, unless that line is disabled by a directive. This holds for references alone, collapsed, and with a text of their own, however many references stand before them in the same text and however deep the text lies, if brackets before them are closed again and the line has no escaped bracket; labels of footnotes and images do not count.", "quantifier": "every document whose blocks have lines counted from one, every source, text, label, option set, formatter and back end", "why_tests_cant": "Tests have a few missing labels; that no neighbouring bracket, nesting, option or directive elsewhere hides a warning is about every text.", "anchors": ["src/serializer/document.rs: check_undefined_references_ast", "src/serializer/document.rs: walk_ast_for_undefined_refs", "src/serializer/document.rs: collect_disabled_line_ranges"]}
