(** The tests of src/serializer/tests.rs, run on the model: part 2 of 4.  Each
    input is given as the tree comrak builds for it, written out by a separate
    reading of Markdown (not verified), so these check the transcription of the
    serializer, not comrak. *)
From Coq Require Import Bool Arith NArith String List.
From Verif Require Import Base OptsModel CodeModel TableModel AstModel StateModel SerModel NounsData TestsBase.
Import ListNotations.

Example test_double_brackets_preserved : run (default_options)
 (nd (NDocument) 1 1 3 31
 [nd (NParagraph) 1 1 1 25
  [nd (NText (u "See [")) 1 1 1 5 []; nd (NLink (u "https://example.com/123") ([])) 1 6 1 11
   [nd (NText (u "#123")) 1 7 1 10 []]; nd (NText (u "] for details.")) 1 12 1 25 []]])
 [Is (u "See [[#123]] for details." ++ [c_nl] ++ [c_nl] ++ u "[#123]: https://example.com/123" ++ [c_nl])] = true.
Proof. vm_compute. reflexivity. Qed.
Example test_double_brackets_with_multiple_refs : run (default_options)
 (nd (NDocument) 1 1 4 31
 [nd (NParagraph) 1 1 1 26
  [nd (NText (u "[")) 1 1 1 1 []; nd (NLink (u "https://example.com/120") ([])) 1 2 1 7
   [nd (NText (u "#120")) 1 3 1 6 []]; nd (NText (u ", ")) 1 8 1 9 []; nd (NLink (u "https://example.com/121") ([])) 1 10 1 15
   [nd (NText (u "#121")) 1 11 1 14 []]; nd (NText (u " by Author]")) 1 16 1 26 []]])
 [Is (u "[[#120], [#121] by Author]" ++ [c_nl] ++ [c_nl] ++ u "[#120]: https://example.com/120" ++ [c_nl] ++ u "[#121]: https://example.com/121" ++ [c_nl])] = true.
Proof. vm_compute. reflexivity. Qed.
Example test_serialize_escaped_backslash : run (default_options)
 (nd (NDocument) 1 1 1 14
 [nd (NParagraph) 1 1 1 14
  [nd (NText (u "path\to\file")) 1 1 1 14 []]])
 [Is (u "path\\to\\file" ++ [c_nl])] = true.
Proof. vm_compute. reflexivity. Qed.
Example test_multi_paragraph_list_item : run (default_options)
 (nd (NDocument) 1 1 5 20
 [nd (NList Bullet false) 1 2 5 20
  [nd (NItem) 1 2 5 20
   [nd (NParagraph) 1 5 1 20
    [nd (NText (u "First paragraph.")) 1 5 1 20 []];
   nd (NParagraph) 3 5 3 21
    [nd (NText (u "Second paragraph.")) 3 5 3 21 []];
   nd (NParagraph) 5 5 5 20
    [nd (NText (u "Third paragraph.")) 5 5 5 20 []]]]])
 [Is (u " -  First paragraph." ++ [c_nl] ++ [c_nl] ++ u "    Second paragraph." ++ [c_nl] ++ [c_nl] ++ u "    Third paragraph." ++ [c_nl])] = true.
Proof. vm_compute. reflexivity. Qed.
Example test_tight_nested_list : run (default_options)
 (nd (NDocument) 1 1 3 16
 [nd (NList Bullet true) 1 2 3 16
  [nd (NItem) 1 2 3 16
   [nd (NParagraph) 1 5 1 9
    [nd (NText (u "Item:")) 1 5 1 9 []];
   nd (NList Bullet true) 2 6 3 16
    [nd (NItem) 2 6 2 16
     [nd (NParagraph) 2 9 2 16
      [nd (NText (u "Nested 1")) 2 9 2 16 []]];
    nd (NItem) 3 6 3 16
     [nd (NParagraph) 3 9 3 16
      [nd (NText (u "Nested 2")) 3 9 3 16 []]]]]]])
 [Is (u " -  Item:" ++ [c_nl] ++ u "     -  Nested 1" ++ [c_nl] ++ u "     -  Nested 2" ++ [c_nl])] = true.
Proof. vm_compute. reflexivity. Qed.
Example test_loose_nested_list : run (default_options)
 (nd (NDocument) 1 1 4 16
 [nd (NList Bullet false) 1 2 4 16
  [nd (NItem) 1 2 4 16
   [nd (NParagraph) 1 5 1 9
    [nd (NText (u "Item.")) 1 5 1 9 []];
   nd (NList Bullet true) 3 6 4 16
    [nd (NItem) 3 6 3 16
     [nd (NParagraph) 3 9 3 16
      [nd (NText (u "Nested 1")) 3 9 3 16 []]];
    nd (NItem) 4 6 4 16
     [nd (NParagraph) 4 9 4 16
      [nd (NText (u "Nested 2")) 4 9 4 16 []]]]]]])
 [Is (u " -  Item." ++ [c_nl] ++ [c_nl] ++ u "     -  Nested 1" ++ [c_nl] ++ u "     -  Nested 2" ++ [c_nl])] = true.
Proof. vm_compute. reflexivity. Qed.
Example test_serialize_asterisk_in_text_not_emphasis : run (default_options)
 (nd (NDocument) 1 1 1 10
 [nd (NParagraph) 1 1 1 10
  [nd (NText (u "5 * 3 = 15")) 1 1 1 10 []]])
 [Is (u "5 \* 3 = 15" ++ [c_nl])] = true.
Proof. vm_compute. reflexivity. Qed.
Example test_serialize_image_inside_link_badge_style : run (default_options)
 (nd (NDocument) 1 1 4 37
 [nd (NParagraph) 1 1 1 24
  [nd (NLink (u "https://jsr.io/") ([])) 1 1 1 24
   [nd (NImage (u "https://jsr.io/badge.svg") ([])) 1 2 1 18
    [nd (NText (u "JSR")) 1 4 1 6 []]]]])
 [Has (u "[![JSR](https://jsr.io/badge.svg)](https://jsr.io/)");
  Not (Has (u "[![JSR](https://jsr.io/badge.svg)]:"))] = true.
Proof. vm_compute. reflexivity. Qed.
Example test_serialize_underscore_always_escaped : run (default_options)
 (nd (NDocument) 1 1 1 27
 [nd (NParagraph) 1 1 1 27
  [nd (NText (u "Use ALL_CAPS for constants.")) 1 1 1 27 []]])
 [Is (u "Use ALL\_CAPS for constants." ++ [c_nl])] = true.
Proof. vm_compute. reflexivity. Qed.
Example test_serialize_underscore_at_boundary_escaped : run (default_options)
 (nd (NDocument) 1 1 1 17
 [nd (NParagraph) 1 1 1 17
  [nd (NText (u "_start and end_")) 1 1 1 17 []]])
 [Is (u "\_start and end\_" ++ [c_nl])] = true.
Proof. vm_compute. reflexivity. Qed.
Example test_serialize_autolink_preserved : run (default_options)
 (nd (NDocument) 1 1 1 43
 [nd (NParagraph) 1 1 1 43
  [nd (NText (u "Visit ")) 1 1 1 6 []; nd (NLink (u "https://example.com/") ([])) 1 7 1 28
   [nd (NText (u "https://example.com/")) 1 8 1 27 []]; nd (NText (u " for more info.")) 1 29 1 43 []]])
 [Is (u "Visit <https://example.com/> for more info." ++ [c_nl])] = true.
Proof. vm_compute. reflexivity. Qed.
Example test_serialize_nested_list_wrap_continuation : run (with_line_width (80) default_options)
 (nd (NDocument) 1 1 2 94
 [nd (NList Ordered true) 1 2 2 94
  [nd (NItem) 1 2 2 94
   [nd (NParagraph) 1 5 1 9
    [nd (NText (u "First")) 1 5 1 9 []];
   nd (NList Bullet true) 2 6 2 94
    [nd (NItem) 2 6 2 94
     [nd (NParagraph) 2 9 2 94
      [nd (NText (u "This is a very long nested item that should wrap with proper eight-space continuation.")) 2 9 2 94 []]]]]]])
 [Has ([c_nl] ++ u "        ")] = true.
Proof. vm_compute. reflexivity. Qed.
Example test_directive_disable_next_line : run_source (u "<!-- hongdown-disable-next-line -->" ++ [c_nl] ++ u "[![Badge][badge-img]][badge-url]" ++ [c_nl] ++ [c_nl] ++ u "[badge-img]: https://example.com/badge.svg" ++ [c_nl] ++ u "[badge-url]: https://example.com") (default_options)
 (nd (NDocument) 1 1 5 32
 [nd (NHtmlBlock (u "<!-- hongdown-disable-next-line -->" ++ [c_nl])) 1 1 1 35 [];
 nd (NParagraph) 2 1 2 32
  [nd (NLink (u "https://example.com") ([])) 2 1 2 32
   [nd (NImage (u "https://example.com/badge.svg") ([])) 2 2 2 20
    [nd (NText (u "Badge")) 2 4 2 8 []]]]])
 [Has (u "[![Badge][badge-img]][badge-url]")] = true.
Proof. vm_compute. reflexivity. Qed.
Example test_directive_disable_file : run_source (u "<!-- hongdown-disable-file -->" ++ [c_nl] ++ [c_nl] ++ u "Title" ++ [c_nl] ++ u "===" ++ [c_nl] ++ [c_nl] ++ u "Some paragraph with *emphasis* that would normally be reformatted.") (default_options)
 (nd (NDocument) 1 1 6 66
 [nd (NHtmlBlock (u "<!-- hongdown-disable-file -->" ++ [c_nl])) 1 1 1 30 [];
 nd (NHeading 1) 3 1 4 3
  [nd (NText (u "Title")) 3 1 3 5 []];
 nd (NParagraph) 6 1 6 66
  [nd (NText (u "Some paragraph with ")) 6 1 6 20 []; nd (NEmph) 6 21 6 30
   [nd (NText (u "emphasis")) 6 22 6 29 []]; nd (NText (u " that would normally be reformatted.")) 6 31 6 66 []]])
 [Has (u "Title" ++ [c_nl] ++ u "===")] = true.
Proof. vm_compute. reflexivity. Qed.
Example test_directive_disable_file_after_front_matter : run_source (u "---" ++ [c_nl] ++ u "title: Test" ++ [c_nl] ++ u "---" ++ [c_nl] ++ [c_nl] ++ u "<!-- hongdown-disable-file -->" ++ [c_nl] ++ [c_nl] ++ u "# Title" ++ [c_nl] ++ [c_nl] ++ u "Some   badly   formatted   text.") (default_options)
 (nd (NDocument) 1 1 9 32
 [nd (NFrontMatter (u "---" ++ [c_nl] ++ u "title: Test" ++ [c_nl] ++ u "---" ++ [c_nl] ++ [c_nl])) 1 1 3 3 [];
 nd (NHtmlBlock (u "<!-- hongdown-disable-file -->" ++ [c_nl])) 5 1 5 30 [];
 nd (NHeading 1) 7 1 7 7
  [nd (NText (u "Title")) 7 3 7 7 []];
 nd (NParagraph) 9 1 9 32
  [nd (NText (u "Some   badly   formatted   text.")) 9 1 9 32 []]])
 [Is (u "---" ++ [c_nl] ++ u "title: Test" ++ [c_nl] ++ u "---" ++ [c_nl] ++ [c_nl] ++ u "<!-- hongdown-disable-file -->" ++ [c_nl] ++ [c_nl] ++ u "# Title" ++ [c_nl] ++ [c_nl] ++ u "Some   badly   formatted   text.")] = true.
Proof. vm_compute. reflexivity. Qed.
Example test_directive_disable_file_preserves_trailing_newline : run_source (u "<!-- hongdown-disable-file -->" ++ [c_nl] ++ [c_nl] ++ u "# Title" ++ [c_nl] ++ [c_nl] ++ u "Some text." ++ [c_nl]) (default_options)
 (nd (NDocument) 1 1 5 10
 [nd (NHtmlBlock (u "<!-- hongdown-disable-file -->" ++ [c_nl])) 1 1 1 30 [];
 nd (NHeading 1) 3 1 3 7
  [nd (NText (u "Title")) 3 3 3 7 []];
 nd (NParagraph) 5 1 5 10
  [nd (NText (u "Some text.")) 5 1 5 10 []]])
 [Is (u "<!-- hongdown-disable-file -->" ++ [c_nl] ++ [c_nl] ++ u "# Title" ++ [c_nl] ++ [c_nl] ++ u "Some text." ++ [c_nl])] = true.
Proof. vm_compute. reflexivity. Qed.
Example test_directive_disable_next_section : run_source (u "First section" ++ [c_nl] ++ u "-------------" ++ [c_nl] ++ [c_nl] ++ u "Normal content." ++ [c_nl] ++ [c_nl] ++ u "<!-- hongdown-disable-next-section -->" ++ [c_nl] ++ [c_nl] ++ u "Second section" ++ [c_nl] ++ u "--------------" ++ [c_nl] ++ [c_nl] ++ u "[![Badge][img]][url]" ++ [c_nl] ++ [c_nl] ++ u "[img]: https://example.com/img.svg" ++ [c_nl] ++ u "[url]: https://example.com" ++ [c_nl] ++ [c_nl] ++ u "Third section" ++ [c_nl] ++ u "-------------" ++ [c_nl] ++ [c_nl] ++ u "This should be formatted normally.") (default_options)
 (nd (NDocument) 1 1 19 34
 [nd (NHeading 2) 1 1 2 13
  [nd (NText (u "First section")) 1 1 1 13 []];
 nd (NParagraph) 4 1 4 15
  [nd (NText (u "Normal content.")) 4 1 4 15 []];
 nd (NHtmlBlock (u "<!-- hongdown-disable-next-section -->" ++ [c_nl])) 6 1 6 38 [];
 nd (NHeading 2) 8 1 9 14
  [nd (NText (u "Second section")) 8 1 8 14 []];
 nd (NParagraph) 11 1 11 20
  [nd (NLink (u "https://example.com") ([])) 11 1 11 20
   [nd (NImage (u "https://example.com/img.svg") ([])) 11 2 11 14
    [nd (NText (u "Badge")) 11 4 11 8 []]]];
 nd (NHeading 2) 16 1 17 13
  [nd (NText (u "Third section")) 16 1 16 13 []];
 nd (NParagraph) 19 1 19 34
  [nd (NText (u "This should be formatted normally.")) 19 1 19 34 []]])
 [Has (u "[![Badge][img]][url]")] = true.
Proof. vm_compute. reflexivity. Qed.
Example test_directive_disable_enable : run_source (u "Normal paragraph." ++ [c_nl] ++ [c_nl] ++ u "<!-- hongdown-disable -->" ++ [c_nl] ++ [c_nl] ++ u "[![Badge][img]][url]" ++ [c_nl] ++ [c_nl] ++ u "Another unformatted line." ++ [c_nl] ++ [c_nl] ++ u "<!-- hongdown-enable -->" ++ [c_nl] ++ [c_nl] ++ u "Back to normal formatting." ++ [c_nl] ++ [c_nl] ++ u "[img]: https://example.com/img.svg" ++ [c_nl] ++ u "[url]: https://example.com") (default_options)
 (nd (NDocument) 1 1 14 26
 [nd (NParagraph) 1 1 1 17
  [nd (NText (u "Normal paragraph.")) 1 1 1 17 []];
 nd (NHtmlBlock (u "<!-- hongdown-disable -->" ++ [c_nl])) 3 1 3 25 [];
 nd (NParagraph) 5 1 5 20
  [nd (NLink (u "https://example.com") ([])) 5 1 5 20
   [nd (NImage (u "https://example.com/img.svg") ([])) 5 2 5 14
    [nd (NText (u "Badge")) 5 4 5 8 []]]];
 nd (NParagraph) 7 1 7 25
  [nd (NText (u "Another unformatted line.")) 7 1 7 25 []];
 nd (NHtmlBlock (u "<!-- hongdown-enable -->" ++ [c_nl])) 9 1 9 24 [];
 nd (NParagraph) 11 1 11 26
  [nd (NText (u "Back to normal formatting.")) 11 1 11 26 []]])
 [Has (u "[![Badge][img]][url]");
  Has (u "Another unformatted line.")] = true.
Proof. vm_compute. reflexivity. Qed.
Example test_preserve_reference_style_badge : run_source (u "[![JSR][JSR badge]][JSR]" ++ [c_nl] ++ [c_nl] ++ u "[JSR]: https://jsr.io/@optique" ++ [c_nl] ++ u "[JSR badge]: https://jsr.io/badges/@optique/core") (default_options)
 (nd (NDocument) 1 1 4 48
 [nd (NParagraph) 1 1 1 24
  [nd (NLink (u "https://jsr.io/@optique") ([])) 1 1 1 24
   [nd (NImage (u "https://jsr.io/badges/@optique/core") ([])) 1 2 1 18
    [nd (NText (u "JSR")) 1 4 1 6 []]]]])
 [Has (u "[![JSR][JSR badge]][JSR]")] = true.
Proof. vm_compute. reflexivity. Qed.
Example test_preserve_reference_style_image : run_source (u "![Logo][logo]" ++ [c_nl] ++ [c_nl] ++ u "[logo]: https://example.com/logo.png") (default_options)
 (nd (NDocument) 1 1 3 36
 [nd (NParagraph) 1 1 1 13
  [nd (NImage (u "https://example.com/logo.png") ([])) 1 1 1 13
   [nd (NText (u "Logo")) 1 3 1 6 []]]])
 [Has (u "![Logo][logo]")] = true.
Proof. vm_compute. reflexivity. Qed.
Example test_preserve_reference_style_link : run_source (u "Check the [documentation][docs] for more info." ++ [c_nl] ++ [c_nl] ++ u "[docs]: https://example.com/docs") (default_options)
 (nd (NDocument) 1 1 3 32
 [nd (NParagraph) 1 1 1 46
  [nd (NText (u "Check the ")) 1 1 1 10 []; nd (NLink (u "https://example.com/docs") ([])) 1 11 1 31
   [nd (NText (u "documentation")) 1 12 1 24 []]; nd (NText (u " for more info.")) 1 32 1 46 []]])
 [Has (u "[documentation][docs]")] = true.
Proof. vm_compute. reflexivity. Qed.
Example test_code_span_with_backticks : run_source (u "Here is `` `code` `` in text.") (default_options)
 (nd (NDocument) 1 1 1 29
 [nd (NParagraph) 1 1 1 29
  [nd (NText (u "Here is ")) 1 1 1 8 []; nd (NCode (u "`code`")) 1 9 1 20 []; nd (NText (u " in text.")) 1 21 1 29 []]])
 [Has (u "`` `code` ``")] = true.
Proof. vm_compute. reflexivity. Qed.
Example test_code_span_with_multiple_backticks : run_source (u "Use ``` `` ``` for double backticks.") (default_options)
 (nd (NDocument) 1 1 1 36
 [nd (NParagraph) 1 1 1 36
  [nd (NText (u "Use ")) 1 1 1 4 []; nd (NCode (u "``")) 1 5 1 14 []; nd (NText (u " for double backticks.")) 1 15 1 36 []]])
 [Has (u "``` `` ```")] = true.
Proof. vm_compute. reflexivity. Qed.
Example test_code_span_simple : run_source (u "Use `code` for inline code.") (default_options)
 (nd (NDocument) 1 1 1 27
 [nd (NParagraph) 1 1 1 27
  [nd (NText (u "Use ")) 1 1 1 4 []; nd (NCode (u "code")) 1 5 1 10 []; nd (NText (u " for inline code.")) 1 11 1 27 []]])
 [Has (u "`code`")] = true.
Proof. vm_compute. reflexivity. Qed.
Example test_code_span_starting_with_backtick : run_source (u "The code `` `foo `` starts with a backtick.") (default_options)
 (nd (NDocument) 1 1 1 43
 [nd (NParagraph) 1 1 1 43
  [nd (NText (u "The code ")) 1 1 1 9 []; nd (NCode (u "`foo")) 1 10 1 19 []; nd (NText (u " starts with a backtick.")) 1 20 1 43 []]])
 [Has (u "`` `foo ``")] = true.
Proof. vm_compute. reflexivity. Qed.
Example test_code_span_ending_with_backtick : run_source (u "The code `` foo` `` ends with a backtick.") (default_options)
 (nd (NDocument) 1 1 1 41
 [nd (NParagraph) 1 1 1 41
  [nd (NText (u "The code ")) 1 1 1 9 []; nd (NCode (u "foo`")) 1 10 1 19 []; nd (NText (u " ends with a backtick.")) 1 20 1 41 []]])
 [Has (u "`` foo` ``")] = true.
Proof. vm_compute. reflexivity. Qed.
Example test_code_span_with_trailing_space : run_source (u "outputting to stderr with an `Error: ` prefix") (default_options)
 (nd (NDocument) 1 1 1 45
 [nd (NParagraph) 1 1 1 45
  [nd (NText (u "outputting to stderr with an ")) 1 1 1 29 []; nd (NCode (u "Error: ")) 1 30 1 38 []; nd (NText (u " prefix")) 1 39 1 45 []]])
 [Has (u "`Error: `")] = true.
Proof. vm_compute. reflexivity. Qed.
Example test_code_span_with_leading_space : run_source (u "The ` Error` message appeared.") (default_options)
 (nd (NDocument) 1 1 1 30
 [nd (NParagraph) 1 1 1 30
  [nd (NText (u "The ")) 1 1 1 4 []; nd (NCode (u " Error")) 1 5 1 12 []; nd (NText (u " message appeared.")) 1 13 1 30 []]])
 [Has (u "` Error`")] = true.
Proof. vm_compute. reflexivity. Qed.
Example test_code_span_with_leading_and_trailing_space : run_source (u "Use ` -  ` for list items.") (default_options)
 (nd (NDocument) 1 1 1 26
 [nd (NParagraph) 1 1 1 26
  [nd (NText (u "Use ")) 1 1 1 4 []; nd (NCode (u "- ")) 1 5 1 10 []; nd (NText (u " for list items.")) 1 11 1 26 []]])
 [Has (u "` -  `")] = true.
Proof. vm_compute. reflexivity. Qed.
Example test_reference_link_multiline_text_normalized : run_source (u "Click [here for" ++ [c_nl] ++ u "more info][1]." ++ [c_nl] ++ [c_nl] ++ u "[1]: https://example.com") (default_options)
 (nd (NDocument) 1 1 4 24
 [nd (NParagraph) 1 1 2 14
  [nd (NText (u "Click ")) 1 1 1 6 []; nd (NLink (u "https://example.com") ([])) 1 7 2 13
   [nd (NText (u "here for")) 1 8 1 15 []; nd (NSoftBreak) 1 16 1 16 []; nd (NText (u "more info")) 2 1 2 9 []]; nd (NText (u ".")) 2 14 2 14 []]])
 [Has (u "[here for more info]")] = true.
Proof. vm_compute. reflexivity. Qed.
Example test_reference_link_idempotent : run_source (u "Click [here for more info][1]." ++ [c_nl] ++ [c_nl] ++ u "[1]: https://example.com" ++ [c_nl]) (default_options)
 (nd (NDocument) 1 1 3 24
 [nd (NParagraph) 1 1 1 30
  [nd (NText (u "Click ")) 1 1 1 6 []; nd (NLink (u "https://example.com") ([])) 1 7 1 29
   [nd (NText (u "here for more info")) 1 8 1 25 []]; nd (NText (u ".")) 1 30 1 30 []]])
 [Is (u "Click [here for more info][1]." ++ [c_nl] ++ [c_nl] ++ u "[1]: https://example.com" ++ [c_nl])] = true.
Proof. vm_compute. reflexivity. Qed.
Example test_code_block_in_list_item : run_source (u " -  Example:" ++ [c_nl] ++ [c_nl] ++ u "    ~~~~" ++ [c_nl] ++ u "    code here" ++ [c_nl] ++ u "    ~~~~") (default_options)
 (nd (NDocument) 1 1 5 8
 [nd (NList Bullet false) 1 2 5 8
  [nd (NItem) 1 2 5 8
   [nd (NParagraph) 1 5 1 12
    [nd (NText (u "Example:")) 1 5 1 12 []];
   nd (NCodeBlock ([]) (u "code here" ++ [c_nl])) 3 5 5 8 []]]])
 [Has (u "Example:" ++ [c_nl] ++ [c_nl] ++ u "    ~~~~");
  Has (u "    code here")] = true.
Proof. vm_compute. reflexivity. Qed.
Example test_code_block_in_list_item_no_language : run_source (u " -  Item:" ++ [c_nl] ++ [c_nl] ++ u "    ~~~~" ++ [c_nl] ++ u "    code" ++ [c_nl] ++ u "    ~~~~") (default_options)
 (nd (NDocument) 1 1 5 8
 [nd (NList Bullet false) 1 2 5 8
  [nd (NItem) 1 2 5 8
   [nd (NParagraph) 1 5 1 9
    [nd (NText (u "Item:")) 1 5 1 9 []];
   nd (NCodeBlock ([]) (u "code" ++ [c_nl])) 3 5 5 8 []]]])
 [Has (u "~~~~" ++ [c_nl])] = true.
Proof. vm_compute. reflexivity. Qed.
Example test_empty_paragraph : run (default_options)
 (nd (NDocument) 1 1 3 0 [])
 [AnyOf [Is []; Blank]] = true.
Proof. vm_compute. reflexivity. Qed.
Example test_deeply_nested_list : run_source (u " -  Level 1" ++ [c_nl] ++ u "    -  Level 2" ++ [c_nl] ++ u "        -  Level 3" ++ [c_nl] ++ u "            -  Level 4") (default_options)
 (nd (NDocument) 1 1 4 22
 [nd (NList Bullet true) 1 2 4 22
  [nd (NItem) 1 2 4 22
   [nd (NParagraph) 1 5 1 11
    [nd (NText (u "Level 1")) 1 5 1 11 []];
   nd (NList Bullet true) 2 5 4 22
    [nd (NItem) 2 5 4 22
     [nd (NParagraph) 2 8 2 14
      [nd (NText (u "Level 2")) 2 8 2 14 []];
     nd (NList Bullet true) 3 9 4 22
      [nd (NItem) 3 9 4 22
       [nd (NParagraph) 3 12 3 18
        [nd (NText (u "Level 3")) 3 12 3 18 []];
       nd (NList Bullet true) 4 13 4 22
        [nd (NItem) 4 13 4 22
         [nd (NParagraph) 4 16 4 22
          [nd (NText (u "Level 4")) 4 16 4 22 []]]]]]]]]]])
 [Has (u "Level 1");
  Has (u "Level 4")] = true.
Proof. vm_compute. reflexivity. Qed.
Example test_link_with_special_characters_in_url : run (default_options)
 (nd (NDocument) 1 1 1 55
 [nd (NParagraph) 1 1 1 55
  [nd (NLink (u "https://example.com/path?query=1&other=2#anchor") ([])) 1 1 1 55
   [nd (NText (u "link")) 1 2 1 5 []]]])
 [Has (u "https://example.com/path?query=1&other=2#anchor")] = true.
Proof. vm_compute. reflexivity. Qed.
Example test_image_with_empty_alt : run (default_options)
 (nd (NDocument) 1 1 1 14
 [nd (NParagraph) 1 1 1 14
  [nd (NImage (u "image.png") ([])) 1 1 1 14 []]])
 [Has (u "![](image.png)")] = true.
Proof. vm_compute. reflexivity. Qed.
Example test_code_span_with_newlines_in_content : run (default_options)
 (nd (NDocument) 1 1 1 6
 [nd (NParagraph) 1 1 1 6
  [nd (NCode (u "code")) 1 1 1 6 []]])
 [Has (u "`code`")] = true.
Proof. vm_compute. reflexivity. Qed.
Example test_escaped_characters_in_text : run (default_options)
 (nd (NDocument) 1 1 1 37
 [nd (NParagraph) 1 1 1 37
  [nd (NText (u "Text with * escaped [ characters ]")) 1 1 1 37 []]])
 [AnyOf [Has (u "\*"); Has (u "*")]] = true.
Proof. vm_compute. reflexivity. Qed.
Example test_multiple_consecutive_code_blocks : run (default_options)
 (nd (NDocument) 1 1 8 4
 [nd (NCodeBlock (u "rust") (u "fn main() {}" ++ [c_nl])) 1 1 3 4 [];
 nd (NCodeBlock (u "python") (u "def main():" ++ [c_nl] ++ u "    pass" ++ [c_nl])) 5 1 8 4 []])
 [Has (u "rust");
  Has (u "python")] = true.
Proof. vm_compute. reflexivity. Qed.
Example test_table_with_empty_cells : run (default_options)
 (nd (NDocument) 1 1 3 9
 [nd (NTable [ANone; ANone]) 1 1 3 9
  [nd (NTableRow) 1 1 1 9
   [nd (NTableCell) 1 3 1 3
    [nd (NText (u "A")) 1 3 1 3 []]; nd (NTableCell) 1 7 1 7
    [nd (NText (u "B")) 1 7 1 7 []]];
  nd (NTableRow) 3 1 3 9
   [nd (NTableCell) 3 5 3 5 []; nd (NTableCell) 3 7 3 7
    [nd (NText (u "X")) 3 7 3 7 []]]]])
 [Has (u "|");
  Has (u "X")] = true.
Proof. vm_compute. reflexivity. Qed.
Example test_blockquote_with_multiple_paragraphs : run (default_options)
 (nd (NDocument) 1 1 3 18
 [nd (NBlockQuote) 1 1 3 18
  [nd (NParagraph) 1 3 1 17
   [nd (NText (u "First paragraph")) 1 3 1 17 []];
  nd (NParagraph) 3 3 3 18
   [nd (NText (u "Second paragraph")) 3 3 3 18 []]]])
 [Has (u "> First paragraph");
  Has (u "> Second paragraph")] = true.
Proof. vm_compute. reflexivity. Qed.
Example test_link_text_with_emphasis : run (default_options)
 (nd (NDocument) 1 1 1 40
 [nd (NParagraph) 1 1 1 40
  [nd (NLink (u "https://example.com") ([])) 1 1 1 40
   [nd (NEmph) 1 2 1 13
    [nd (NText (u "emphasized")) 1 3 1 12 []]; nd (NText (u " link")) 1 14 1 18 []]]])
 [Has (u "*emphasized*")] = true.
Proof. vm_compute. reflexivity. Qed.
Example test_heading_with_special_characters : run (default_options)
 (nd (NDocument) 1 1 1 36
 [nd (NHeading 1) 1 1 1 36
  [nd (NText (u "Heading with ")) 1 3 1 15 []; nd (NCode (u "code")) 1 16 1 21 []; nd (NText (u " and ")) 1 22 1 26 []; nd (NEmph) 1 27 1 36
   [nd (NText (u "emphasis")) 1 28 1 35 []]]])
 [Has (u "`code`");
  Has (u "*emphasis*")] = true.
Proof. vm_compute. reflexivity. Qed.
Example test_very_long_word_in_paragraph : run (default_options)
 (nd (NDocument) 1 1 1 90
 [nd (NParagraph) 1 1 1 90
  [nd (NText (u "This is a supercalifragilisticexpialidociousandmuchmuchlongerwordthatcannotbewrapped word.")) 1 1 1 90 []]])
 [Has (u "supercalifragilisticexpialidociousandmuchmuchlongerwordthatcannotbewrapped")] = true.
Proof. vm_compute. reflexivity. Qed.
Example test_strikethrough_text : run (default_options)
 (nd (NDocument) 1 1 1 17
 [nd (NParagraph) 1 1 1 17
  [nd (NText (u "~~strikethrough~~")) 1 1 1 17 []]])
 [Not (Is [])] = true.
Proof. vm_compute. reflexivity. Qed.
Example test_mixed_ordered_unordered_lists : run (default_options)
 (nd (NDocument) 1 1 3 18
 [nd (NList Ordered true) 1 2 1 16
  [nd (NItem) 1 2 1 16
   [nd (NParagraph) 1 5 1 16
    [nd (NText (u "Ordered item")) 1 5 1 16 []]]];
 nd (NList Bullet true) 3 2 3 18
  [nd (NItem) 3 2 3 18
   [nd (NParagraph) 3 5 3 18
    [nd (NText (u "Unordered item")) 3 5 3 18 []]]]])
 [Has (u "1.");
  Has (u "-")] = true.
Proof. vm_compute. reflexivity. Qed.
Example test_horizontal_rule : run (default_options)
 (nd (NDocument) 1 1 5 5
 [nd (NParagraph) 1 1 1 6
  [nd (NText (u "Before")) 1 1 1 6 []];
 nd (NThematicBreak) 3 1 3 3 [];
 nd (NParagraph) 5 1 5 5
  [nd (NText (u "After")) 5 1 5 5 []]])
 [Has (u "Before");
  Has (u "- - - - - - - - - - - - - - - - - - - - - - - - - - - - - - - - - - - - -");
  Has (u "After")] = true.
Proof. vm_compute. reflexivity. Qed.
Example test_thematic_break_default_leading_spaces : run (default_options)
 (nd (NDocument) 1 1 5 5
 [nd (NParagraph) 1 1 1 6
  [nd (NText (u "Before")) 1 1 1 6 []];
 nd (NThematicBreak) 3 1 3 3 [];
 nd (NParagraph) 5 1 5 5
  [nd (NText (u "After")) 5 1 5 5 []]])
 [Has ([c_nl] ++ u "   - - - - - - - - - - - - - - - - - - - - - - - - - - - - - - - - - - - - -" ++ [c_nl])] = true.
Proof. vm_compute. reflexivity. Qed.
Example test_thematic_break_custom_style : run (with_thematic_break_style (u "---") (with_thematic_break_leading_spaces (0) default_options))
 (nd (NDocument) 1 1 5 5
 [nd (NParagraph) 1 1 1 6
  [nd (NText (u "Before")) 1 1 1 6 []];
 nd (NThematicBreak) 3 1 3 3 [];
 nd (NParagraph) 5 1 5 5
  [nd (NText (u "After")) 5 1 5 5 []]])
 [Has ([c_nl] ++ u "---" ++ [c_nl])] = true.
Proof. vm_compute. reflexivity. Qed.
Example test_thematic_break_leading_spaces : run (with_thematic_break_style (u "*  *  *") (with_thematic_break_leading_spaces (3) default_options))
 (nd (NDocument) 1 1 5 5
 [nd (NParagraph) 1 1 1 6
  [nd (NText (u "Before")) 1 1 1 6 []];
 nd (NThematicBreak) 3 1 3 3 [];
 nd (NParagraph) 5 1 5 5
  [nd (NText (u "After")) 5 1 5 5 []]])
 [Has ([c_nl] ++ u "   *  *  *" ++ [c_nl])] = true.
Proof. vm_compute. reflexivity. Qed.
Example test_thematic_break_idempotent : run (default_options)
 (nd (NDocument) 1 1 5 5
 [nd (NParagraph) 1 1 1 6
  [nd (NText (u "Before")) 1 1 1 6 []];
 nd (NThematicBreak) 3 4 3 76 [];
 nd (NParagraph) 5 1 5 5
  [nd (NText (u "After")) 5 1 5 5 []]])
 [Is (u "Before" ++ [c_nl] ++ [c_nl] ++ u "   - - - - - - - - - - - - - - - - - - - - - - - - - - - - - - - - - - - - -" ++ [c_nl] ++ [c_nl] ++ u "After" ++ [c_nl])] = true.
Proof. vm_compute. reflexivity. Qed.
Example test_unicode_in_heading : run (default_options)
 (nd (NDocument) 1 1 1 15
 [nd (NHeading 1) 1 1 1 15
  [nd (NText (u "한글 제목")) 1 3 1 15 []]])
 [Has (u "한글 제목")] = true.
Proof. vm_compute. reflexivity. Qed.
Example test_unicode_in_link_text : run (default_options)
 (nd (NDocument) 1 1 1 36
 [nd (NParagraph) 1 1 1 36
  [nd (NLink (u "https://example.com") ([])) 1 1 1 36
   [nd (NText (u "한글 링크")) 1 2 1 14 []]]])
 [Has (u "한글 링크")] = true.
Proof. vm_compute. reflexivity. Qed.
Example test_footnote_with_multiple_paragraphs : run (default_options)
 (nd (NDocument) 1 1 3 33
 [nd (NParagraph) 1 1 1 8
  [nd (NText (u "Text")) 1 1 1 4 []; nd (NFootnoteReference (u "1")) 1 5 1 8 []];
 nd (NFootnoteDefinition (u "1")) 3 1 3 33
  [nd (NParagraph) 3 7 3 33
   [nd (NText (u "First paragraph of footnote")) 3 7 3 33 []]]])
 [Has (u "[^1]")] = true.
Proof. vm_compute. reflexivity. Qed.
Example test_nested_emphasis : run (default_options)
 (nd (NDocument) 1 1 1 21
 [nd (NParagraph) 1 1 1 21
  [nd (NEmph) 1 1 1 21
   [nd (NStrong) 1 2 1 20
    [nd (NText (u "bold and italic")) 1 4 1 18 []]]]])
 [Has (u "*")] = true.
Proof. vm_compute. reflexivity. Qed.
Example test_code_block_with_blank_lines : run (default_options)
 (nd (NDocument) 1 1 5 4
 [nd (NCodeBlock (u "text") (u "line 1" ++ [c_nl] ++ [c_nl] ++ u "line 3" ++ [c_nl])) 1 1 5 4 []])
 [Has (u "line 1");
  Has (u "line 3")] = true.
Proof. vm_compute. reflexivity. Qed.
Example test_gfm_task_list_checked : run (default_options)
 (nd (NDocument) 1 1 1 21
 [nd (NList Bullet true) 1 2 1 21
  [nd (NTaskItem (Some 120%N)) 1 2 1 21
   [nd (NParagraph) 1 8 1 21
    [nd (NText (u "Completed task")) 1 8 1 21 []]]]])
 [Is (u " -  [x] Completed task" ++ [c_nl])] = true.
Proof. vm_compute. reflexivity. Qed.
Example test_gfm_task_list_unchecked : run (default_options)
 (nd (NDocument) 1 1 1 19
 [nd (NList Bullet true) 1 2 1 19
  [nd (NTaskItem None) 1 2 1 19
   [nd (NParagraph) 1 8 1 19
    [nd (NText (u "Pending task")) 1 8 1 19 []]]]])
 [Is (u " -  [ ] Pending task" ++ [c_nl])] = true.
Proof. vm_compute. reflexivity. Qed.
Example test_gfm_task_list_mixed : run (default_options)
 (nd (NDocument) 1 1 3 16
 [nd (NList Bullet true) 1 2 3 16
  [nd (NTaskItem (Some 120%N)) 1 2 1 11
   [nd (NParagraph) 1 8 1 11
    [nd (NText (u "Done")) 1 8 1 11 []]];
  nd (NTaskItem None) 2 2 2 11
   [nd (NParagraph) 2 8 2 11
    [nd (NText (u "Todo")) 2 8 2 11 []]];
  nd (NTaskItem (Some 120%N)) 3 2 3 16
   [nd (NParagraph) 3 8 3 16
    [nd (NText (u "Also done")) 3 8 3 16 []]]]])
 [Has (u "[x] Done");
  Has (u "[ ] Todo");
  Has (u "[x] Also done")] = true.
Proof. vm_compute. reflexivity. Qed.
Example test_gfm_task_list_nested : run (default_options)
 (nd (NDocument) 1 1 2 20
 [nd (NList Bullet true) 1 2 2 20
  [nd (NTaskItem (Some 120%N)) 1 2 2 20
   [nd (NParagraph) 1 8 1 18
    [nd (NText (u "Parent task")) 1 8 1 18 []];
   nd (NList Bullet true) 2 5 2 20
    [nd (NTaskItem None) 2 5 2 20
     [nd (NParagraph) 2 11 2 20
      [nd (NText (u "Child task")) 2 11 2 20 []]]]]]])
 [Has (u "[x] Parent task");
  Has (u "[ ] Child task")] = true.
Proof. vm_compute. reflexivity. Qed.
Example test_definition_list_no_extra_blank_line : run (default_options)
 (nd (NDocument) 1 1 2 19
 [nd (NDescriptionList) 1 1 2 19
  [nd (NDescriptionItem) 1 1 2 19
   [nd (NDescriptionTerm) 1 1 1 4
    [nd (NParagraph) 1 1 1 4
     [nd (NText (u "Term")) 1 1 1 4 []]];
   nd (NDescriptionDetails) 2 1 2 19
    [nd (NParagraph) 2 5 2 19
     [nd (NText (u "Definition here")) 2 5 2 19 []]]]]])
 [Is (u "Term" ++ [c_nl] ++ u ":   Definition here" ++ [c_nl])] = true.
Proof. vm_compute. reflexivity. Qed.
Example test_definition_list_multiple_items : run (default_options)
 (nd (NDocument) 1 1 5 15
 [nd (NDescriptionList) 1 1 5 15
  [nd (NDescriptionItem) 1 1 2 15
   [nd (NDescriptionTerm) 1 1 1 5
    [nd (NParagraph) 1 1 1 5
     [nd (NText (u "Term1")) 1 1 1 5 []]];
   nd (NDescriptionDetails) 2 1 2 15
    [nd (NParagraph) 2 5 2 15
     [nd (NText (u "Definition1")) 2 5 2 15 []]]];
  nd (NDescriptionItem) 4 1 5 15
   [nd (NDescriptionTerm) 4 1 4 5
    [nd (NParagraph) 4 1 4 5
     [nd (NText (u "Term2")) 4 1 4 5 []]];
   nd (NDescriptionDetails) 5 1 5 15
    [nd (NParagraph) 5 5 5 15
     [nd (NText (u "Definition2")) 5 5 5 15 []]]]]])
 [Has (u "Term1" ++ [c_nl] ++ u ":   Definition1");
  Has (u "Term2" ++ [c_nl] ++ u ":   Definition2");
  Not (Has (u "Term1" ++ [c_nl] ++ [c_nl] ++ u ":"))] = true.
Proof. vm_compute. reflexivity. Qed.
Example test_abbreviation_definition_preserved : run_source (u "*[JSX]: JavaScript XML") (default_options)
 (nd (NDocument) 1 1 1 22
 [nd (NParagraph) 1 1 1 22
  [nd (NText (u "*[JSX]: JavaScript XML")) 1 1 1 22 []]])
 [Is (u "*[JSX]: JavaScript XML" ++ [c_nl])] = true.
Proof. vm_compute. reflexivity. Qed.
Example test_abbreviation_definition_multiple : run_source (u "*[HTML]: HyperText Markup Language" ++ [c_nl] ++ [c_nl] ++ u "*[CSS]: Cascading Style Sheets") (default_options)
 (nd (NDocument) 1 1 3 30
 [nd (NParagraph) 1 1 1 34
  [nd (NText (u "*[HTML]: HyperText Markup Language")) 1 1 1 34 []];
 nd (NParagraph) 3 1 3 30
  [nd (NText (u "*[CSS]: Cascading Style Sheets")) 3 1 3 30 []]])
 [Has (u "*[HTML]: HyperText Markup Language");
  Has (u "*[CSS]: Cascading Style Sheets")] = true.
Proof. vm_compute. reflexivity. Qed.
Example test_definition_list_with_list_as_first_child : run (default_options)
 (nd (NDocument) 1 1 3 19
 [nd (NDescriptionList) 1 1 3 19
  [nd (NDescriptionItem) 1 1 3 19
   [nd (NDescriptionTerm) 1 1 1 4
    [nd (NParagraph) 1 1 1 4
     [nd (NText (u "Pros")) 1 1 1 4 []]];
   nd (NDescriptionDetails) 2 1 3 19
    [nd (NList Bullet true) 2 6 3 19
     [nd (NItem) 2 6 2 18
      [nd (NParagraph) 2 9 2 18
       [nd (NText (u "First item")) 2 9 2 18 []]];
     nd (NItem) 3 6 3 19
      [nd (NParagraph) 3 9 3 19
       [nd (NText (u "Second item")) 3 9 3 19 []]]]]]]])
 [Has (u "Pros" ++ [c_nl] ++ u ":    -  First item");
  Has (u "     -  Second item")] = true.
Proof. vm_compute. reflexivity. Qed.
Example test_reference_used_in_multiple_sections_not_duplicated : run_source (u "Section" ++ [c_nl] ++ u "-------" ++ [c_nl] ++ [c_nl] ++ u "### First" ++ [c_nl] ++ [c_nl] ++ u "Text with [link]." ++ [c_nl] ++ [c_nl] ++ u "### Second" ++ [c_nl] ++ [c_nl] ++ u "More text with [link]." ++ [c_nl] ++ [c_nl] ++ u "[link]: https://example.com" ++ [c_nl]) (default_options)
 (nd (NDocument) 1 1 12 27
 [nd (NHeading 2) 1 1 2 7
  [nd (NText (u "Section")) 1 1 1 7 []];
 nd (NHeading 3) 4 1 4 9
  [nd (NText (u "First")) 4 5 4 9 []];
 nd (NParagraph) 6 1 6 17
  [nd (NText (u "Text with ")) 6 1 6 10 []; nd (NLink (u "https://example.com") ([])) 6 11 6 16
   [nd (NText (u "link")) 6 12 6 15 []]; nd (NText (u ".")) 6 17 6 17 []];
 nd (NHeading 3) 8 1 8 10
  [nd (NText (u "Second")) 8 5 8 10 []];
 nd (NParagraph) 10 1 10 22
  [nd (NText (u "More text with ")) 10 1 10 15 []; nd (NLink (u "https://example.com") ([])) 10 16 10 21
   [nd (NText (u "link")) 10 17 10 20 []]; nd (NText (u ".")) 10 22 10 22 []]])
 [Count 1 (u "[link]: https://example.com")] = true.
Proof. vm_compute. reflexivity. Qed.
Example test_heading_with_reference_link : run_source (u "[BotKit] by Fedify" ++ [c_nl] ++ u "==================" ++ [c_nl] ++ [c_nl] ++ u "[BotKit]: https://botkit.fedify.dev/" ++ [c_nl]) (default_options)
 (nd (NDocument) 1 1 4 36
 [nd (NHeading 1) 1 1 2 18
  [nd (NLink (u "https://botkit.fedify.dev/") ([])) 1 1 1 8
   [nd (NText (u "BotKit")) 1 2 1 7 []]; nd (NText (u " by Fedify")) 1 9 1 18 []]])
 [Has (u "[BotKit] by Fedify");
  Has (u "[BotKit]: https://botkit.fedify.dev/")] = true.
Proof. vm_compute. reflexivity. Qed.
Example test_footnote_at_section_end_before_subheading : run_source (u "Section" ++ [c_nl] ++ u "-------" ++ [c_nl] ++ [c_nl] ++ u "Text with footnote[^1]." ++ [c_nl] ++ [c_nl] ++ u "### Subsection" ++ [c_nl] ++ [c_nl] ++ u "More text here." ++ [c_nl] ++ [c_nl] ++ u "[^1]: This is a footnote." ++ [c_nl]) (default_options)
 (nd (NDocument) 1 1 10 25
 [nd (NHeading 2) 1 1 2 7
  [nd (NText (u "Section")) 1 1 1 7 []];
 nd (NParagraph) 4 1 4 23
  [nd (NText (u "Text with footnote")) 4 1 4 18 []; nd (NFootnoteReference (u "1")) 4 19 4 22 []; nd (NText (u ".")) 4 23 4 23 []];
 nd (NHeading 3) 6 1 6 14
  [nd (NText (u "Subsection")) 6 5 6 14 []];
 nd (NParagraph) 8 1 8 15
  [nd (NText (u "More text here.")) 8 1 8 15 []];
 nd (NFootnoteDefinition (u "1")) 10 1 10 25
  [nd (NParagraph) 10 7 10 25
   [nd (NText (u "This is a footnote.")) 10 7 10 25 []]]])
 [Before (u "[^1]: This is a footnote.") (u "### Subsection")] = true.
Proof. vm_compute. reflexivity. Qed.
Example test_footnote_definition_wrapped_at_80_chars : run_source (u "Text[^1]." ++ [c_nl] ++ [c_nl] ++ u "[^1]: This is a very long footnote definition that definitely exceeds eighty characters and should be wrapped." ++ [c_nl]) (default_options)
 (nd (NDocument) 1 1 3 110
 [nd (NParagraph) 1 1 1 9
  [nd (NText (u "Text")) 1 1 1 4 []; nd (NFootnoteReference (u "1")) 1 5 1 8 []; nd (NText (u ".")) 1 9 1 9 []];
 nd (NFootnoteDefinition (u "1")) 3 1 3 110
  [nd (NParagraph) 3 7 3 110
   [nd (NText (u "This is a very long footnote definition that definitely exceeds eighty characters and should be wrapped.")) 3 7 3 110 []]]])
 [Within 80;
  Has (u "This is a very long footnote")] = true.
Proof. vm_compute. reflexivity. Qed.
Example test_footnote_continuation_indent_matches_prefix : run_source (u "Text[^note]." ++ [c_nl] ++ [c_nl] ++ u "[^note]: This is a long footnote with a longer name that should wrap with proper indentation." ++ [c_nl]) (default_options)
 (nd (NDocument) 1 1 3 93
 [nd (NParagraph) 1 1 1 12
  [nd (NText (u "Text")) 1 1 1 4 []; nd (NFootnoteReference (u "note")) 1 5 1 11 []; nd (NText (u ".")) 1 12 1 12 []];
 nd (NFootnoteDefinition (u "note")) 3 1 3 93
  [nd (NParagraph) 3 10 3 93
   [nd (NText (u "This is a long footnote with a longer name that should wrap with proper indentation.")) 3 10 3 93 []]]])
 [Has ([c_nl] ++ u "         ")] = true.
Proof. vm_compute. reflexivity. Qed.
Example test_table_warns_on_unescaped_pipe_in_cell : run_source (u "| Property | Type | Required |" ++ [c_nl] ++ u "|----------|------|----------|" ++ [c_nl] ++ u "| `strategy` | `""a"" | ""b""` | Yes |") (default_options)
 (nd (NDocument) 1 1 3 34
 [nd (NTable [ANone; ANone; ANone]) 1 1 3 34
  [nd (NTableRow) 1 1 1 30
   [nd (NTableCell) 1 3 1 10
    [nd (NText (u "Property")) 1 3 1 10 []]; nd (NTableCell) 1 14 1 17
    [nd (NText (u "Type")) 1 14 1 17 []]; nd (NTableCell) 1 21 1 28
    [nd (NText (u "Required")) 1 21 1 28 []]];
  nd (NTableRow) 3 1 3 34
   [nd (NTableCell) 3 3 3 12
    [nd (NCode (u "strategy")) 3 3 3 12 []]; nd (NTableCell) 3 16 3 19
    [nd (NText (u "`""a""")) 3 16 3 19 []]; nd (NTableCell) 3 23 3 26
    [nd (NText (u """b""`")) 3 23 3 26 []]]]])
 [Warned 1;
  WarnHas 0 (u "unescaped");
  WarnLine 0 3] = true.
Proof. vm_compute. reflexivity. Qed.
Example test_heading_setext_h1_disabled : run (with_setext_h1 (false) default_options)
 (nd (NDocument) 1 1 1 16
 [nd (NHeading 1) 1 1 1 16
  [nd (NText (u "Document Title")) 1 3 1 16 []]])
 [Is (u "# Document Title" ++ [c_nl])] = true.
Proof. vm_compute. reflexivity. Qed.
Example test_heading_setext_h1_enabled : run (with_setext_h1 (true) default_options)
 (nd (NDocument) 1 1 1 16
 [nd (NHeading 1) 1 1 1 16
  [nd (NText (u "Document Title")) 1 3 1 16 []]])
 [Is (u "Document Title" ++ [c_nl] ++ u "==============" ++ [c_nl])] = true.
Proof. vm_compute. reflexivity. Qed.
Example test_heading_setext_h2_disabled : run (with_setext_h2 (false) default_options)
 (nd (NDocument) 1 1 1 16
 [nd (NHeading 2) 1 1 1 16
  [nd (NText (u "Section Title")) 1 4 1 16 []]])
 [Is (u "## Section Title" ++ [c_nl])] = true.
Proof. vm_compute. reflexivity. Qed.
Example test_heading_setext_h2_enabled : run (with_setext_h2 (true) default_options)
 (nd (NDocument) 1 1 1 16
 [nd (NHeading 2) 1 1 1 16
  [nd (NText (u "Section Title")) 1 4 1 16 []]])
 [Is (u "Section Title" ++ [c_nl] ++ u "-------------" ++ [c_nl])] = true.
Proof. vm_compute. reflexivity. Qed.
Example test_list_unordered_marker_asterisk : run (with_unordered_marker (UAsterisk) default_options)
 (nd (NDocument) 1 1 2 12
 [nd (NList Bullet true) 1 2 2 12
  [nd (NItem) 1 2 1 12
   [nd (NParagraph) 1 5 1 12
    [nd (NText (u "Item one")) 1 5 1 12 []]];
  nd (NItem) 2 2 2 12
   [nd (NParagraph) 2 5 2 12
    [nd (NText (u "Item two")) 2 5 2 12 []]]]])
 [Is (u " *  Item one" ++ [c_nl] ++ u " *  Item two" ++ [c_nl])] = true.
Proof. vm_compute. reflexivity. Qed.
Example test_list_unordered_marker_plus : run (with_unordered_marker (UPlus) default_options)
 (nd (NDocument) 1 1 2 12
 [nd (NList Bullet true) 1 2 2 12
  [nd (NItem) 1 2 1 12
   [nd (NParagraph) 1 5 1 12
    [nd (NText (u "Item one")) 1 5 1 12 []]];
  nd (NItem) 2 2 2 12
   [nd (NParagraph) 2 5 2 12
    [nd (NText (u "Item two")) 2 5 2 12 []]]]])
 [Is (u " +  Item one" ++ [c_nl] ++ u " +  Item two" ++ [c_nl])] = true.
Proof. vm_compute. reflexivity. Qed.
Example test_list_unordered_marker_default : run (default_options)
 (nd (NDocument) 1 1 2 12
 [nd (NList Bullet true) 1 2 2 12
  [nd (NItem) 1 2 1 12
   [nd (NParagraph) 1 5 1 12
    [nd (NText (u "Item one")) 1 5 1 12 []]];
  nd (NItem) 2 2 2 12
   [nd (NParagraph) 2 5 2 12
    [nd (NText (u "Item two")) 2 5 2 12 []]]]])
 [Is (u " -  Item one" ++ [c_nl] ++ u " -  Item two" ++ [c_nl])] = true.
Proof. vm_compute. reflexivity. Qed.
