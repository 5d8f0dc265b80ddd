# Formal model of hongdown: design

Subject: `dahlia/hongdown` (Rust Markdown formatter), source read as text in
`/repo`.  Nothing there was built, run or changed.  Model and proofs:
`/verif/rocq/theories`, Rocq/Coq 8.16.1, standard library only.

## Trusted base

 -  Coq's kernel (type checker and, for closed examples, `vm_compute`).
 -  What `Print Assumptions` prints below every property theorem
    (see *Assumptions* at the end; no axiom is declared in this development).
 -  The hand transcription of the Rust functions listed below.  Every
    definition carries a comment citing file and lines, and says so where it
    simplifies.
 -  Not modelled, and therefore assumed to behave as documented: the Rust
    compiler and standard library, the `comrak` parser (the serializer is
    modelled for *every* syntax tree, not only for those comrak builds),
    the `toml`/`serde` parsers, `clap`, `rayon` (any interleaving of the
    per-file steps is allowed), the `regex` engine (the three fixed patterns
    are transcribed as functions), `unicode-width`, the Unicode character
    database beyond `White_Space` and ASCII, `html_escape::NAMED_ENTITIES`,
    `similar` (diff rendering), `walkdir`/`ignore` (directory walks), the
    operating system's file system and process primitives.
 -  Panics: index arithmetic that can leave its range is an explicit `Panic`
    (source slices, `usize` subtraction in footnotes, list depth, lines of
    directives).  Slices whose bounds come from `find` or `char_indices` of the
    same string are transcribed as operations on the string itself.  Stack
    depth and memory are not modelled.

## Modelling decisions

 -  A `char` is an `N` (Unicode scalar value), a string is `list N`.  Byte
    lengths, where the code uses them, are computed with the UTF-8 length of
    each scalar.  `usize` is `nat` without overflow above 2^64; subtraction
    that can underflow is an explicit `Panic` outcome.
 -  Unicode predicates (`is_alphabetic`, `is_alphanumeric`, `is_uppercase`,
    case mapping) and display width are fields of a record of oracle
    functions passed explicitly.  Theorems hold for every record; when a law
    is needed (for example "the width of printable ASCII is its length") it
    is an explicit hypothesis of the theorem, and an Example beside the
    theorem shows a concrete record that satisfies it.
 -  The syntax tree is an inductive rose tree with source positions.
 -  The serializer state is a record; methods are functions in a
    state-and-panic monad; recursion is structural on the tree.
 -  External formatter processes, file systems, thread schedules and crashes
    are transition systems quantified over all behaviours.
 -  Specifications (CommonMark code span scanner, fence scanner, backslash
    unescaping, GFM pipe counting, thematic break grammar, config lookup,
    file-system histories) are written separately from the model, in
    `Spec*.v`, and do not call model helpers.
 -  The reader of blocks (`SpecBlocks.v`: paragraphs, ATX and setext headings,
    fenced and indented code, thematic breaks, block quotes, alerts, lists,
    tasks, link definitions, tables with both outer pipes, HTML comments and
    HTML blocks with known tags, footnotes, description lists) is a partial function: where
    CommonMark has more to say than it covers, it gives up instead of guessing.
    It gives up on other HTML (scripts, unlisted tags), tables without outer
    pipes, several details of one term, colons without text behind them, lazy
    continuation lines, tabs in indentation
    (except where they stay whole after list markers of a multiple of four
    columns), setext headings of several lines, items that begin
    with an empty line or with indented code, and definitions over several
    lines.  So `reads lines blocks` claims exactly these blocks.  Words inside
    paragraphs are compared, inline syntax is not read there (C46 and C48 do).

## What is modelled and what is not

| Source | Model | Not modelled |
| ------ | ----- | ------------ |
| `src/lib.rs` | `Options`, `format`, `format_with_warnings` (`OptsModel`, `SerModel`) | the comrak call itself (a parameter) |
| `src/config.rs` | newtypes, merging, discovery, cascade (`OptsModel`, `ConfigModel`) | TOML syntax (a parsed layer is a record of optional settings) |
| `src/main.rs` | option assembly (`ConfigModel`), run modes, workers, path expansion (`CliModel`), printing of diffs (`DiffModel`) | `clap` parsing, finding the differences (`similar`), message texts, symbolic links |
| `src/wasm.rs` | `JsOptions::to_options` (`ConfigModel`), the callback formatter (`CodeModel`) | JavaScript value conversion by serde |
| `serializer/escape.rs` | all (`EscapeModel`) | |
| `serializer/punctuation.rs` | all (`PunctModel`) | |
| `serializer/wrap.rs` | all (`WrapModel`) | |
| `serializer/code.rs` | all (`CodeModel`) | |
| `serializer/formatter.rs` | `run_formatter` as a transition system (`FormatterModel`) | failure to start the program |
| `serializer/table.rs` | all (`TableModel`, `SerModel`) | |
| `serializer/heading.rs` | all (`HeadingModel`) | the contents of the built-in proper-noun table (a parameter in the theorems; `NounsData` has the whole table for the unit tests) |
| `serializer/state.rs` | all (`StateModel`, `SerModel`) | |
| `serializer/inline.rs`, `link.rs` | all (`InlineModel`, `SerModel`) | |
| `serializer/block.rs`, `list.rs`, `mod.rs`, `document.rs` | all (`SerModel`, `WarnModel`) | the regex engine (the patterns are functions) |
| `serializer/tests.rs` | 313 of 324 tests (`TestsBase`, `TestsDoc1`–`TestsDoc4`) | run on the model as Examples, each on the tree a separate (unverified) reading of Markdown with comrak's positions gave for the input; what is asserted of the result is asserted there. The other 11 index into lines in ways not worth transcribing. They check the transcription, they prove no property |
| `packages/wasm/README.md` | yes (`TestsRepo`) | the repository keeps its documents formatted; the model leaves this one unchanged, and README.md, STYLE.md and CHANGES.md too (run outside the build) |
| the unit tests in `heading.rs` and `punctuation.rs` | 60 of 61 and 43 of 47 (`TestsUnits`) | run on the model as Examples: they check the transcription, they prove no property |

The syntax tree (`AstModel`) keeps of comrak's nodes what the serializer reads.

## Plan per property

| Id  | What is modelled | How it is proved |
| --- | ---------------- | ---------------- |
| C01 | `escape_text` | independent unescape function; induction over the text |
| C02 | `format_code_span` | independent CommonMark code-span scanner; induction |
| C03 | the three code block writers | independent fence scanner over lines; the indent variant used for description details is refuted |
| C04 | `escape_table_cell`, `count_unescaped_pipes` | independent GFM cell scanner; two-step induction |
| C05 | `serialize_table`, `format_cell_aligned` | width laws + column maxima |
| C06 | `wrap.rs` completely | invariant of the token loop |
| C07 | `wrap.rs` completely, the writing of footnotes | invariant on every emitted line; footnotes of one paragraph against an independent greedy filling (`SpecFill.v`) |
| C08 | `wrap_text*` | case analysis on segments |
| C09 | `transform_ellipsis` | induction; documented "four or more are preserved" and idempotence are refuted |
| C10 | `transform_dashes` | strong induction over the text |
| C11 | the three quote transforms | pointwise relation by induction |
| C12 | `transform_punctuation` | induction; which parts hold is settled by proof or refutation |
| C13 | `validate_dash_settings`, CLI and JS entry | case analysis |
| C14 | the newtype constructors | arithmetic |
| C15 | `ThematicBreakStyle::new`, `serialize_thematic_break` | independent CommonMark grammar; expected to be refuted for mixed markers |
| C16 | `merge_over`, `load_cascading`, `load_config` | independent "last layer that sets it" lookup |
| C17 | `discover_project_config` | induction on the path |
| C18, C19, C20 | `process_files_parallel` and friends as a transition system | invariants over all interleavings; crash points |
| C21 | `try_format_code`, `parse_code_info`, block writers | oracle formatter |
| C22 | `run_formatter` | transition system with pipe buffers; expected to be refuted |
| C23, C24 | `serialize_document`, `extract_source*` | induction over the block list |
| C25, C26, C36 | reference and footnote bookkeeping | ghost trace of written definitions, invariant over the whole serializer |
| C27 | `serialize_list*` | induction over the items |
| C28 | the whole serializer | nested induction on trees |
| C29 | `serialize_heading` | direct |
| C30 | `heading.rs` completely | invariants of tokenizer and word loop |
| C31 | the whole serializer | structural recursion + absence of `Panic` |
| C32 | `safe_str_slice`, `extract_source` | byte-offset lemmas |
| C33 | `collect_disabled_line_ranges`, `check_undefined_references_ast` | filter lemma; ranges |
| C34 | `JsOptions::to_options` | field by field |
| C35 | `Directive::parse` | independent grammar |
| C37 | `expand_paths`, `collect_md_files`, `collect_files` | directory trees; the walker for patterns is a list of entries |
| C38 | delimiters | induction on the tree |
| C39 | inline collection and code blocks | relational induction |
| C40 | `serialize_document` | induction on the last block (`tidy`), then on the run of the document; footnotes with blocks by what their blocks write (`inked`) |
| C41 | `escape_text`, text with its source | induction on the escaped text; scan of brackets |
| C42 | text with its source | an independent reader of escapes and references (`SpecText.v`); induction on its pieces |
| C43 | `wrap.rs` completely | an independent reader of CommonMark blocks (`SpecBlocks.v`); every line written begins with a word of the text |
| C44 | the whole serializer | the same reader; every block is shown to be written as lines that read as that block under any prefix of quotes and indentation, by induction on the tree (`StructProof.v`, `StructList.v`; tables and HTML in `LeafTable.v`, description lists in `StructDesc.v`). Footnotes are written between the blocks in an order of their own: `StructNote.v` shows that one is read back (blocks after its first paragraph are written further in than the reader takes away; `StructShift.v` shows that lines moved by up to three columns read the same), `StructDoc.v` that a run of the document writes every block once, in order, every footnote once, and that the reader finds the link definitions of the trace, each with its label, URL and title (`C44_definitions_partial`) |
| C45 | `wrap_text`, `wrap_text_first_line` | `SpecAgain.v` reads the lines of a paragraph back into text; the lines a segment is laid out as are shown to be a greedy layout of its units every suffix of which is again greedy (`AgainProof.v`), so that keeping short lines and laying out the rest from the first long one gives the same lines. Documents: `SpecAgain.again` says which tree a tree becomes when its output is parsed; `AgainDoc.v` runs both trees side by side and keeps output, context, references and the number of formatter calls equal, the nouns of directives equal, and the collected footnotes equal in their words; `AgainTop.v` does so for the children of a document, through the modes directives set and through every place where footnotes are written. That comrak reads the output as such a tree is a hypothesis (C44 proves the block part of it for an independent reader) |
| C46 | `collect_inline`, the delimiters, text, code, links, images, HTML and footnote references with their source | an independent reader of CommonMark inlines (`SpecEmph.v`: delimiter runs, flanking, the stack with the rule of three, brackets with their four kinds of tails, autolinks; raw HTML is a parameter), checked on the examples of sections 6.2 to 6.5; a layout that is placed as the rules demand is shown to read as its content (`EmphProof.v`), and what is written is shown to be a layout of the tree (`EmphDoc.v`) |
| C47 | `serialize_heading`, `collect_text` | the same, for the collector of headings; C29 gives the line around it |
| C48 | the whole serializer | the readers of C44 and C46 together: the blocks of C44 `tell` what the nodes say when the words of their paragraphs, one space apart, read as their inline content. For prose (text without brackets, code, breaks, emphasis at the edges of words, links and images whose written URLs read as they are, autolinks, footnote references, recognised HTML) the placing that C46 asks for is a theorem (`ProseProof.v`), so the only conditions are on the tree. The reader takes its definitions from the blocks it has read (`C48_links_lead_partial`): every reference of the tree is used in the run (`UsesProof.v`), every use is defined once (C25), and the definitions read are those written (C44) |
| C49 | `print_diff`, `process_files_diff` | a strict reader of unified diffs (`SpecDiff.v`); the hunks are any that turn the one list of lines into the other (`diff_of`) |
| C50 | the link writers of `inline.rs` and `link.rs` | the table of STYLE.md as an inductive relation between how a link is spelled in the source and what is written (`SpecLink.v`); induction on the inline tree |
| C51 | `heading.rs` completely | the rules of README.md and CHANGES.md as relations on words, chunks of text, quotations and headings (`SpecCase.v`); the tokenizers and the word loop are shown to follow them (`CaseProof.v`) |
| C52 | `heading.rs` completely, what `serialize_heading` writes | the sentence case of a text in sentence case is that text (`SpecSteady.v` for the letters, nouns and texts it is shown for; `CaseAgain.v`) |
| C53 | the main loop of `document.rs`, the flushes, everything C44 uses | the lines of the output are the blocks, the groups at the ends of sections and the trailing HTML with the given numbers of blank lines (`SpecSpacing.v`; in the induction of `StructDoc.v`); inside lists, items, quotes and alerts the blank lines are given by `SpecGaps.v`, carried through the induction of `StructProof.v` and `StructList.v`; code, HTML and description lists are not looked into |
| C54 | where `ordered_list_pad` is read (nowhere in `src/serializer`) | two runs with options that differ only in `pad` are the same (a case of C55); the documented alignment is refuted by a list of ten items |
| C55 | `serialize_node` and everything it calls, for two option sets | the options agree outside a section (`SpecScope.v`), no node is of the kind the section is about; then the two runs agree from every state with the same kind of list and the same details flag, by induction on the tree (`ScopeProof.v`). The settings for width and punctuation have no such kind and are not covered |
| C56 | `serialize_document`, all of `serialize_node`, the flushes | two runs from states that differ in what was written before (`FrameProof.v`: output `p ++ x` and `x`, same context, pending references, skip mode and nouns, emitted labels alike for labels not defined before) stay so related; the empty line before definitions depends on at most two characters, which the heading provides; the first part alone and inside the whole are related with `p` empty. Footnotes are left out; for two texts, C60 moves each part into the joint text |
| C57 | run modes and workers (as C18, C19, C49) | from the final file system of a successful --write run (C19) the reports of --check (C18), a second --write and --diff (C49) are computed; with `format_with_warnings` as the formatter C45 applies |
| C58 | whole serializer and wrapping | for every block the text written is `neat` in every context without white space at the end of its prefix: induction on `neat_block` with the state "what has been written is neat, and either nothing of the current line or only a prefix that the next character completes"; wrapping by the lines of its segments |
| C59 | whole serializer, two runs | lock-step induction: two states are near when what they have written agrees with white space (and quote marks) squashed to single spaces and everything else agrees; wrapping a text, at any width, is alike to its source lines with spaces between; contents of footnotes agree up to white space before a line feed |
| C60 | whole serializer, `check_undefined`, `check_table_source_columns`, two runs | lock-step induction: the state of the run further down is a function of the other state (all line numbers greater by k, 0 stays 0) except for the warnings, which are related one by one; slices of the source at moved positions are the same lines; two-part texts (C56) follow with the first part before and the second after |
| C61 | whole serializer with `try_format_code`, two runs | lock-step induction (`AnswerProof.v`): the states of the two runs are the same except for the recorded calls and the warnings without a line; the three writers of code blocks use a formatter only through `answer` (`SpecAnswer.v`), for the language `block_language` of blocks not marked `hongdown-no-format`; everything else does not look at `code_formatters` |
| C62 | `main` (mode selection), the three loops over files | the sequential loops in closed form, the parallel one by C19 and the invariant of C18; two runs from one file system |
| C63 | all of the serializer under two sets of options | pointwise equality of the two serializers; each step of `transform_punctuation` is the identity without its character, and makes nothing a later step looks for |
| C64 | all of the serializer with `checks` on and off | one run panics or both reach the same state, act by act |
| C65 | `document` loop, `directive_act`, `heading` | C23/C24's block-by-block text, with the nouns named so far carried along; each heading's text is that of its own run with these nouns configured |
| C66 | `serialize_root`, `table`, `check_table_source_columns`, footnote flush | the located warnings as a list: undefined references, then footnote tables, then tables of formatted blocks, each with exactly its uneven lines (`SpecWarned.v`); two runs agree for any options |
| C67 | `check_undefined`, `ref_matches`, `disabled_ranges` | the converse of C33's soundness: strong induction over the text before the reference, matches never reach past closed brackets; lines in a range are lines disabled by a directive |

## Findings (statements that are false of the model)

Each is a theorem ending in `_refuted` with a concrete witness.

| Theorem | What goes wrong |
| ------- | --------------- |
| `C02_both_end_spaces_refuted` | a code span whose content starts and ends with a space loses one space on each side |
| `C03_lone_cr_refuted` | a carriage return inside code becomes a line ending after reformatting |
| `C03_info_backslash_refuted`, `C03_info_backtick_refuted`, `C03_info_glued_refuted` | info strings with backslash escapes, with backticks under a backtick fence, or glued to the fence are not read back |
| `C03_description_fence_refuted`, `C03_description_extra_line_refuted` | the writer used in description details may choose a fence that the code closes, and adds an empty line |
| `C04_code_in_cell_refuted` | `\\|` inside a code span in a table cell |
| `C06_leading_space_refuted` | wrapping text that starts with a space |
| `C07_item_first_line_refuted` | the first line of a list item is filled as if it had no marker: 83 columns at width 80 |
| `C07_footnote_marker_refuted` | a footnote whose marker is wider than the line is not filled at all when overflow is unchecked (the width left over wraps around) |
| `C07_hard_break_width_refuted`, `C07_continuation_prefix_refuted` | hard-break spaces and the prefix after a hard break are not counted |
| `C09_four_dots_preserved_refuted`, `C09_idempotent_refuted` | runs of four or more dots are shortened; a second pass changes the text again |
| `C10_each_reachable_refuted` | one dash pattern can shadow another |
| `C12_quotes_idempotent_refuted` | a letter followed by two straight single quotes |
| `C13_javascript_conflict_refuted` | the JavaScript entry point accepts conflicting dash settings |
| `C14_line_width_flag_panics_refuted` | `--line-width` out of range panics instead of reporting an error |
| `C15_mixed_markers_refuted`, `C15_leading_space_refuted` | accepted thematic break styles that are not thematic breaks |
| `C16_nested_setting_refuted`, `C16_broken_file_discards_project_refuted` | a section in a nearer file discards the other settings of that section; an unreadable file drops other layers |
| `C18_stdin_check_refuted` | `--check` together with standard input always exits 0; files named besides `-` are ignored |
| `C19_duplicate_arguments_refuted` | a file listed twice (`docs docs/a.md`) can end up holding only a formatted fragment, without any error |
| `C20_crash_refuted`, `C20_failed_write_refuted` | files are truncated before they are rewritten: a crash or a full disk loses them |
| `C22_blocked_write_refuted`, `C22_background_process_refuted`, `C22_large_output_refuted` | the clock starts only after all input is written, output is read only after the exit: a formatter that does not read, that leaves a background process, or that writes more than a pipe holds is not handled |
| `C21_warning_line_refuted` | formatter warnings carry line 0 |
| `C29_empty_heading_refuted` | an empty level 1/2 heading gets an empty underline |
| `C30_double_backtick_refuted` | sentence case changes code in spans delimited by several backticks |
| `C30_fffd_refuted` | text that looks like a placeholder is overwritten |
| `C30_link_destination_refuted` | sentence case lower-cases link destinations in headings |
| `C23_nested_directive_refuted` | a disable-next-line directive inside a disabled region ends the region after one block |
| `C23_footnote_refuted` | a footnote definition inside a disabled region is moved and reformatted |
| `C23_definition_refuted` | a link definition inside a disabled region is lost while the link that needs it is written |
| `C25_same_text_refuted`, `C25_case_refuted` | two external links with the same text (or texts differing only in case) and different URLs end up at one URL |
| `C25_unreadable_refuted` | definitions that are not definitions: empty link text, a bracket in a code span, a space in the URL, a quotation mark in the title |
| `C25_code_refuted` | a closing bracket in a code span ends the text of the link; the code is lost |
| `C25_file_refuted` | a definition after disable-file is written twice |
| `C25_disabled_refuted` | a link in a disabled region loses its definition when that stands outside the region |
| `C26_twice_refuted`, `C26_lost_refuted` | disable-file: a definition after the directive is written twice, one before it and referenced after it is lost |
| `C26_empty_refuted` | a footnote holding only an empty block quote is not written, its references stay |
| `C26_content_refuted` | the content of a footnote that is an HTML block (or a break, an alert ...) is lost |
| `C26_early_refuted` | a footnote referenced only inside another footnote is placed by the source line of that footnote and can precede every reference |
| `C27_alignment_refuted` | item 100 of an ordered list starts one column later than item 1 |
| `C28_no_influence_refuted` | a description list inside the first list of description details changes the indentation of a following quoted list |
| `C31_label_refuted` | a footnote label wider than the line underflows `line_width - prefix.width()`: a panic in builds with overflow checks (width 8, `[^note]`) |
| `C31_position_refuted` | a paragraph whose position ends before it starts panics |
| `C40_one_newline_refuted` | front matter alone ends in two newlines; also an empty quote, an empty underlined heading, a list item that ends in a heading, a footnote that holds an empty quote (`PropsEnd.v`) |
| `C32_no_panic_refuted` | a position whose end column lies before its start column panics |
| `C36_footnote_references_refuted` | references used inside footnotes are not sorted numerically |
| `C33_escaped_refuted` | `\[a\]` is reported as an undefined reference `[a]` |
| `C33_nested_table_refuted`, `C33_footnote_table_refuted` | column warnings for tables in disabled regions: after a nested disable-next-line, and inside footnotes |
| `C39_sentence_case_refuted` | an entity for a quotation mark in a heading: with curly quotes on, the count of backticks is off and sentence case lower-cases the code |
| `C34_invalid_em_dash_refuted` | a malformed em dash pattern disables the conversion |
| `C41_text_never_forms_link_refuted` | nested brackets in text can become a link |
| `C41_escaped_link_refuted` | `\[a\](b)` is written `\\[a\\](b)`, which is a link |
| `C42_escape_refuted` | an escape other than of `*`, `_`, a backtick and the backslash gains a backslash: `1\. a` is written `1\\. a` |
| `C46_word_refuted` | emphasis inside a word whose text has an asterisk is written with `_` and is no emphasis any more: `a*b \* c*d` |
| `C46_nested_refuted` | strong emphasis around emphasis that contains an asterisk: `**_a \* b_**` is written `___a \* b___`, emphasis around strong emphasis |
| `C46_parenthesis_refuted`, `C46_definition_refuted` | a link to an external URL is written with a label whatever follows it: `[text](https://x.y)(see)` becomes a link to `see`, and the paragraph `[foo](https://x.y): bar` becomes a link definition, its text is gone |
| `C46_footnote_refuted` | `Text[^1][foo](https://x.y)` becomes `Text[^1][foo]`: one link, no footnote |
| `C46_new_label_refuted` | `[foo]` in the text becomes a link once another link is written with the label `foo` |
| `C46_spaced_url_refuted`, `C46_url_parenthesis_refuted`, `C46_title_refuted`, `C46_url_reference_refuted` | URLs and titles are written as they are: a URL with a space or a parenthesis, a title with quotation marks, a URL with a character reference |
| `C46_relative_url_refuted`, `C46_emphasised_url_refuted`, `C46_empty_url_refuted` | a link whose raw text is its URL is written between angle brackets: `[foo](foo)` becomes the tag `<foo>`, emphasis is lost, and a link with an empty URL and only code as text becomes `<>` |
| `C46_bracket_url_refuted` | `<https://a/?x[b]=1>` is taken for a link with the label `b` and becomes `[b]` |
| `C46_exclamation_refuted` | `\![foo](u)` gains a backslash and becomes an image |
| `C47_html_refuted` | inline HTML in a heading is dropped: `Line<br>break` becomes `Linebreak` |
| `C47_footnote_refuted` | a footnote reference in a heading is dropped |
| `C47_link_code_refuted`, `C47_link_emphasis_refuted`, `C47_link_image_refuted` | in a heading, code in the text of a link is lost, emphasis and images lose their marks |
| `C47_link_escape_refuted` | in a heading, an escaped character in the text of a link loses its backslash: `[\*a\*](u)` becomes emphasis |
| `C47_break_refuted` | a hard line break in a heading is dropped and the words around it run together |
| `C42_entity_refuted` | after a converted quotation mark an entity is given to an earlier character: `&lt;b&gt;` is written as the tag `<b>` |
| `C43_wrapped_into_blocks_refuted`, `C43_any_text_refuted` | wrapping does not look at what a line begins with: `-`, `>`, `#`, `1.` or `=====` between words becomes a list, a quote or a heading when the line is broken before it |
| `C43_blank_word_refuted` | a no-break space standing alone on a line is trimmed away and splits the paragraph |
| `C44_adjacent_lists_refuted` | `- a` and `* b` one after the other become one list |
| `C44_numbered_heading_refuted` | `## 1. Intro` becomes an ordered list and a rule: underlined headings are not looked at |
| `C44_quoted_heading_refuted` | a heading in a block quote is written without the quote |
| `C44_quoted_code_refuted`, `C44_quoted_list_refuted` | code and lists inside two block quotes keep one quote only |
| `C44_quoted_loose_list_refuted` | the blank line between the items of a loose list in a quote ends the quote |
| `C44_code_first_refuted` | an item that begins with code becomes an empty item and indented code with the fences in it |
| `C44_listed_details_refuted` | a paragraph after a list that description details begin with leaves the details and becomes indented code |
| `C44_quoted_details_refuted` | details of two paragraphs in a block quote: the blank line between them ends the quote |
| `C44_empty_quote_refuted` | an empty block quote vanishes |
| `C44_item_heading_refuted`, `C44_item_rule_refuted` | a heading or a rule after the paragraph of a list item is written on the same line as the paragraph |
| `C44_item_html_refuted` | so is an HTML block, which becomes inline HTML |
| `C44_quoted_item_quote_refuted` | a quote in a list item in a quote: the outer quote ends, the inner one becomes code |
| `C44_first_rule_refuted` | a rule written `---` at the beginning of a document opens front matter |
| `C44_indent_width_refuted` | with `indent_width = 2` a nested list becomes part of the outer list |
| `C44_hundredth_item_refuted` | a second paragraph of item 100 becomes indented code |
| `C44_adjacent_ordered_refuted` | `1. a` and `2) b` one after the other become one list |
| `C44_item_table_refuted`, `C44_item_comment_refuted` | a table or an HTML comment after the paragraph of a list item is written on the line of the paragraph, without indentation |
| `C44_alert_table_refuted` | a table in two alerts (or quotes) keeps one quote mark only |
| `C44_details_table_refuted` | a table in description details leaves them after its first line |
| `C44_trailing_html_refuted` | two HTML blocks at the end of a document become one: no blank line is written between them |
| `C44_long_footnote_refuted` | the second paragraph of a footnote named with three bytes or more becomes code: lines are indented by the width of the name and five columns, where four are asked for |
| `C44_footnote_list_refuted` | a list in a footnote named with two bytes becomes code |
| `C44_footnote_code_refuted` | code that begins a footnote gains leading spaces |
| `C44_footnote_list_first_refuted` | the second item of a list that begins a footnote goes into the first item: `[^1]:  -  b` eats the blanks before the marker, the next line keeps them |
| `C44_footnote_alert_refuted` | a footnote of a paragraph and an alert becomes one paragraph, without a space between the two |
| `C44_footnote_break_refuted` | a hard line break in a footnote of one paragraph is lost |
| `C44_front_matter_note_refuted` | a footnote that is written between front matter and a section takes the heading of the section into its paragraph: no blank line is written between them |
| `C44_quoted_html_refuted`, `C44_quoted_comment_refuted` | HTML blocks and comments in a block quote are written without the quote |
| `C45_double_space_refuted` | two spaces between words count for the width when a line is broken after them: `[a long link] one.  Two words` is laid out differently the second time |
| `C45_list_after_code_refuted` | in an item, a list below code without an empty line between them is written after one; read back there is a gap, and the second run writes two empty lines |
| `C45_note_in_note_refuted` | a footnote that only another footnote refers to is written after the section its reference stands in; the first run moves that reference to an earlier section, so the second run moves the footnote |
| `C45_tight_list_refuted` | an item of a tight list that holds code is written with a blank line in it; read back the list is loose, and the second run puts blank lines between the items |
| `C49_final_newline_refuted` | `--diff` never prints "\ No newline at end of file": files with and without the last line ending give the same diff, and a file that lacks only that shows a line removed and the same line added |
| `C49_carriage_return_refuted` | a lone carriage return is shown as the end of a line, exactly as one followed by a line feed |
| `C50_bracket_refuted` | `[foo](https://x.y)[bar]`: the text behind the link begins with a bracket, the link is written `[foo]` before it and is no link to that URL any more |
| `C50_heading_bracket_refuted` | two external links side by side in a heading are written `[a][b]`, one link |
| `C50_heading_angle_refuted` | an autolink in a heading is written as a reference with a definition of its own |
| `C51_first_word_refuted`, `C51_emphasis_refuted` | the first word of a heading gets no capital if punctuation or emphasis comes first (`**Getting** Started` becomes `**getting** started`) |
| `C51_acronym_refuted` | acronyms are kept only at the beginning of a word: `(APIs)` becomes `(apis)` |
| `C51_delimiter_refuted` | a word between two delimiters loses its capital (`Intro: Setup: Steps`) |
| `C51_quotation_first_refuted` | a heading that begins with a quotation gets a second capital behind it |
| `C52_capital_s_refuted` | `Why Github'S Api` changes again in a second run: the first one makes the S small, the second then finds the noun |
| `C52_long_noun_refuted` | the straight mark of a noun of several words (`Rock 'n Roll`) that the first run writes is an opening quotation mark for the second |
| `C52_decade_refuted` | with the noun `90S`, `'90s` becomes `'90S`, whose mark the second run turns |
| `C52_letter_refuted` | a letter whose capital is two characters (U+0149) changes again |
| `C53_html_alone_refuted` | a document of HTML alone begins with two blank lines |
| `C53_item_heading_refuted` | two blank lines after a list whose last item ends with a heading |
| `C53_empty_quote_refuted` | an empty quote leaves two blank lines between its neighbours |
| `C53_item_code_refuted` | two blank lines between two blocks of code in an item |
| `C53_item_quote_refuted` | two blank lines between a quote and a paragraph in an item |
| `C54_pad_refuted` | the default `ordered_list.pad = "start"`: the numbers 1 to 10 are padded behind (`1.  a`, `10. a`), as with "end" |
| `C55_details_refuted` | `unordered_list.trailing_spaces` changes the second line of an item of an ordered list in description details |
| `C57_check_after_write_refuted` | --write succeeds on a tight list with code in an item, --check then fails: formatting it again adds an empty line (C45) |
| `C58_no_breaks_refuted` | an empty item is written ` -  `; examples beside it: an item that begins with a list, quote or code, details that begin with code, code with an empty line in an item in a quote (`> `), `[b]: <>` (written `[b]: `), an empty footnote (`[^1]: `), an empty heading (`### `), inline HTML or a title over two lines (the newline becomes a hard break) |
| `C56_labels_refuted` | a link `[a]` before and in a section: its definition is written once, before the section, so the section alone has a definition more |
| `C67_escaped_refuted` | `\[x] and [x]`: the escaped bracket hides the reference after it, as only the first place of the label on the line is looked at |
| `C67_unclosed_refuted` | `[1, 2) and [x]`: the warning is about the label `1, 2) and [x`, not `x` |
| `C67_code_refuted` | a line in a code block that looks like a definition counts as one, so the reference is not reported |

Seen while modelling, without a theorem: the first number of an ordered list
and the title of an alert are dropped (they are not in the model's tree); a
block quote inside a quote inside an item, and a list or code inside a quote
inside an item, lose the indentation of the item.  `serialize_link` and
`serialize_image` would write a link in itself (`[[a](b)](b)`), as they collect
the text of the link node and not of its children; they run only on links that
are children of a block, which a parser never makes (it puts a paragraph even
in the term of a description), so C50 is about the inline functions.

## Assumptions

`Print Assumptions` follows each theorem in the `Props*.v` files and prints
`Closed under the global context` for all of them.  (A whole-library check
also lists the seven `Coq.ssr.ssrunder.Under_rel` parameters: they are part of
the standard library's ssreflect files, pulled in by `Require`, and no theorem
here uses them.)
