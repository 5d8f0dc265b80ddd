(** The tests of src/serializer/tests.rs, run on the model: part 3 of 4.  Each
    input is given as the tree comrak builds for it, written out by a separate
    reading of Markdown (not verified), so these check the transcription of the
    serializer, not comrak. *)
From Coq Require Import Bool Arith NArith String List.
From Verif Require Import Base OptsModel CodeModel TableModel AstModel StateModel SerModel NounsData TestsBase.
Import ListNotations.

Example test_list_leading_spaces_zero : run (with_leading_spaces (0) default_options)
 (nd (NDocument) 1 1 2 12
 [nd (NList Bullet true) 1 2 2 12
  [nd (NItem) 1 2 1 12
   [nd (NParagraph) 1 5 1 12
    [nd (NText (u "Item one")) 1 5 1 12 []]];
  nd (NItem) 2 2 2 12
   [nd (NParagraph) 2 5 2 12
    [nd (NText (u "Item two")) 2 5 2 12 []]]]])
 [Is (u "-  Item one" ++ [c_nl] ++ u "-  Item two" ++ [c_nl])] = true.
Proof. vm_compute. reflexivity. Qed.
Example test_list_leading_spaces_two : run (with_leading_spaces (2) default_options)
 (nd (NDocument) 1 1 2 12
 [nd (NList Bullet true) 1 2 2 12
  [nd (NItem) 1 2 1 12
   [nd (NParagraph) 1 5 1 12
    [nd (NText (u "Item one")) 1 5 1 12 []]];
  nd (NItem) 2 2 2 12
   [nd (NParagraph) 2 5 2 12
    [nd (NText (u "Item two")) 2 5 2 12 []]]]])
 [Is (u "  -  Item one" ++ [c_nl] ++ u "  -  Item two" ++ [c_nl])] = true.
Proof. vm_compute. reflexivity. Qed.
Example test_list_trailing_spaces_one : run (with_trailing_spaces (1) default_options)
 (nd (NDocument) 1 1 2 12
 [nd (NList Bullet true) 1 2 2 12
  [nd (NItem) 1 2 1 12
   [nd (NParagraph) 1 5 1 12
    [nd (NText (u "Item one")) 1 5 1 12 []]];
  nd (NItem) 2 2 2 12
   [nd (NParagraph) 2 5 2 12
    [nd (NText (u "Item two")) 2 5 2 12 []]]]])
 [Is (u " - Item one" ++ [c_nl] ++ u " - Item two" ++ [c_nl])] = true.
Proof. vm_compute. reflexivity. Qed.
Example test_list_trailing_spaces_three : run (with_trailing_spaces (3) default_options)
 (nd (NDocument) 1 1 2 12
 [nd (NList Bullet true) 1 2 2 12
  [nd (NItem) 1 2 1 12
   [nd (NParagraph) 1 5 1 12
    [nd (NText (u "Item one")) 1 5 1 12 []]];
  nd (NItem) 2 2 2 12
   [nd (NParagraph) 2 5 2 12
    [nd (NText (u "Item two")) 2 5 2 12 []]]]])
 [Is (u " -   Item one" ++ [c_nl] ++ u " -   Item two" ++ [c_nl])] = true.
Proof. vm_compute. reflexivity. Qed.
Example test_list_indent_width_two : run (with_indent_width (2) default_options)
 (nd (NDocument) 1 1 2 14
 [nd (NList Bullet true) 1 2 2 14
  [nd (NItem) 1 2 2 14
   [nd (NParagraph) 1 5 1 12
    [nd (NText (u "Item one")) 1 5 1 12 []];
   nd (NList Bullet true) 2 6 2 14
    [nd (NItem) 2 6 2 14
     [nd (NParagraph) 2 9 2 14
      [nd (NText (u "Nested")) 2 9 2 14 []]]]]]])
 [Is (u " -  Item one" ++ [c_nl] ++ u "   -  Nested" ++ [c_nl])] = true.
Proof. vm_compute. reflexivity. Qed.
Example test_list_indent_width_default : run (default_options)
 (nd (NDocument) 1 1 2 14
 [nd (NList Bullet true) 1 2 2 14
  [nd (NItem) 1 2 2 14
   [nd (NParagraph) 1 5 1 12
    [nd (NText (u "Item one")) 1 5 1 12 []];
   nd (NList Bullet true) 2 6 2 14
    [nd (NItem) 2 6 2 14
     [nd (NParagraph) 2 9 2 14
      [nd (NText (u "Nested")) 2 9 2 14 []]]]]]])
 [Is (u " -  Item one" ++ [c_nl] ++ u "     -  Nested" ++ [c_nl])] = true.
Proof. vm_compute. reflexivity. Qed.
Example test_ordered_list_odd_level_marker : run (with_odd_level_marker (OParenthesis) default_options)
 (nd (NDocument) 1 1 2 9
 [nd (NList Ordered true) 1 1 2 9
  [nd (NItem) 1 1 1 8
   [nd (NParagraph) 1 4 1 8
    [nd (NText (u "First")) 1 4 1 8 []]];
  nd (NItem) 2 1 2 9
   [nd (NParagraph) 2 4 2 9
    [nd (NText (u "Second")) 2 4 2 9 []]]]])
 [Is (u "1)  First" ++ [c_nl] ++ u "2)  Second" ++ [c_nl])] = true.
Proof. vm_compute. reflexivity. Qed.
Example test_ordered_list_even_level_marker : run (with_even_level_marker (OPeriod) default_options)
 (nd (NDocument) 1 1 3 20
 [nd (NList Ordered true) 1 1 3 20
  [nd (NItem) 1 1 3 20
   [nd (NParagraph) 1 4 1 8
    [nd (NText (u "First")) 1 4 1 8 []];
   nd (NList Ordered true) 2 5 3 20
    [nd (NItem) 2 5 2 19
     [nd (NParagraph) 2 8 2 19
      [nd (NText (u "Nested first")) 2 8 2 19 []]];
    nd (NItem) 3 5 3 20
     [nd (NParagraph) 3 8 3 20
      [nd (NText (u "Nested second")) 3 8 3 20 []]]]]]])
 [Has (u "1.  Nested first");
  Has (u "2.  Nested second")] = true.
Proof. vm_compute. reflexivity. Qed.
Example test_ordered_list_alternating_markers : run (default_options)
 (nd (NDocument) 1 1 3 20
 [nd (NList Ordered true) 1 1 3 20
  [nd (NItem) 1 1 3 20
   [nd (NParagraph) 1 4 1 8
    [nd (NText (u "First")) 1 4 1 8 []];
   nd (NList Ordered true) 2 5 3 20
    [nd (NItem) 2 5 2 19
     [nd (NParagraph) 2 8 2 19
      [nd (NText (u "Nested first")) 2 8 2 19 []]];
    nd (NItem) 3 5 3 20
     [nd (NParagraph) 3 8 3 20
      [nd (NText (u "Nested second")) 3 8 3 20 []]]]]]])
 [Has (u "1.  First");
  Has (u "1)  Nested first");
  Has (u "2)  Nested second")] = true.
Proof. vm_compute. reflexivity. Qed.
Example test_code_block_fence_char_backtick : run (with_fence_char (FBacktick) default_options)
 (nd (NDocument) 1 1 3 4
 [nd (NCodeBlock (u "rust") (u "fn main() {}" ++ [c_nl])) 1 1 3 4 []])
 [Starts (u "````");
  Has (u "rust")] = true.
Proof. vm_compute. reflexivity. Qed.
Example test_code_block_fence_char_default : run (default_options)
 (nd (NDocument) 1 1 3 3
 [nd (NCodeBlock (u "rust") (u "fn main() {}" ++ [c_nl])) 1 1 3 3 []])
 [Starts (u "~~~~")] = true.
Proof. vm_compute. reflexivity. Qed.
Example test_code_block_min_fence_length_three : run (with_min_fence_length (3) default_options)
 (nd (NDocument) 1 1 3 4
 [nd (NCodeBlock (u "rust") (u "fn main() {}" ++ [c_nl])) 1 1 3 4 []])
 [Starts (u "~~~");
  Not (Starts (u "~~~~"))] = true.
Proof. vm_compute. reflexivity. Qed.
Example test_code_block_min_fence_length_six : run (with_min_fence_length (6) default_options)
 (nd (NDocument) 1 1 3 4
 [nd (NCodeBlock (u "rust") (u "fn main() {}" ++ [c_nl])) 1 1 3 4 []])
 [Starts (u "~~~~~~")] = true.
Proof. vm_compute. reflexivity. Qed.
Example test_code_block_space_after_fence_false : run (with_space_after_fence (false) default_options)
 (nd (NDocument) 1 1 3 4
 [nd (NCodeBlock (u "rust") (u "fn main() {}" ++ [c_nl])) 1 1 3 4 []])
 [Has (u "~~~~rust")] = true.
Proof. vm_compute. reflexivity. Qed.
Example test_code_block_space_after_fence_true : run (with_space_after_fence (true) default_options)
 (nd (NDocument) 1 1 3 4
 [nd (NCodeBlock (u "rust") (u "fn main() {}" ++ [c_nl])) 1 1 3 4 []])
 [Has (u "~~~~ rust")] = true.
Proof. vm_compute. reflexivity. Qed.
Example test_ordered_list_long_list : run (default_options)
 (nd (NDocument) 1 1 10 7
 [nd (NList Ordered true) 1 1 10 7
  [nd (NItem) 1 1 1 6
   [nd (NParagraph) 1 4 1 6
    [nd (NText (u "One")) 1 4 1 6 []]];
  nd (NItem) 2 1 2 6
   [nd (NParagraph) 2 4 2 6
    [nd (NText (u "Two")) 2 4 2 6 []]];
  nd (NItem) 3 1 3 8
   [nd (NParagraph) 3 4 3 8
    [nd (NText (u "Three")) 3 4 3 8 []]];
  nd (NItem) 4 1 4 7
   [nd (NParagraph) 4 4 4 7
    [nd (NText (u "Four")) 4 4 4 7 []]];
  nd (NItem) 5 1 5 7
   [nd (NParagraph) 5 4 5 7
    [nd (NText (u "Five")) 5 4 5 7 []]];
  nd (NItem) 6 1 6 6
   [nd (NParagraph) 6 4 6 6
    [nd (NText (u "Six")) 6 4 6 6 []]];
  nd (NItem) 7 1 7 8
   [nd (NParagraph) 7 4 7 8
    [nd (NText (u "Seven")) 7 4 7 8 []]];
  nd (NItem) 8 1 8 8
   [nd (NParagraph) 8 4 8 8
    [nd (NText (u "Eight")) 8 4 8 8 []]];
  nd (NItem) 9 1 9 7
   [nd (NParagraph) 9 4 9 7
    [nd (NText (u "Nine")) 9 4 9 7 []]];
  nd (NItem) 10 1 10 7
   [nd (NParagraph) 10 5 10 7
    [nd (NText (u "Ten")) 10 5 10 7 []]]]])
 [Has (u "1.  One");
  Has (u "9.  Nine");
  Has (u "10. Ten")] = true.
Proof. vm_compute. reflexivity. Qed.
Example test_ordered_list_pad_small_list : run (default_options)
 (nd (NDocument) 1 1 3 8
 [nd (NList Ordered true) 1 1 3 8
  [nd (NItem) 1 1 1 6
   [nd (NParagraph) 1 4 1 6
    [nd (NText (u "One")) 1 4 1 6 []]];
  nd (NItem) 2 1 2 6
   [nd (NParagraph) 2 4 2 6
    [nd (NText (u "Two")) 2 4 2 6 []]];
  nd (NItem) 3 1 3 8
   [nd (NParagraph) 3 4 3 8
    [nd (NText (u "Three")) 3 4 3 8 []]]]])
 [Has (u "1.  One");
  Has (u "2.  Two");
  Has (u "3.  Three")] = true.
Proof. vm_compute. reflexivity. Qed.
Example test_ordered_list_nested_long : run (default_options)
 (nd (NDocument) 1 1 12 17
 [nd (NList Ordered true) 1 1 12 17
  [nd (NItem) 1 1 1 13
   [nd (NParagraph) 1 4 1 13
    [nd (NText (u "Parent one")) 1 4 1 13 []]];
  nd (NItem) 2 1 12 17
   [nd (NParagraph) 2 4 2 13
    [nd (NText (u "Parent two")) 2 4 2 13 []];
   nd (NList Ordered true) 3 5 12 17
    [nd (NItem) 3 5 3 16
     [nd (NParagraph) 3 8 3 16
      [nd (NText (u "Child one")) 3 8 3 16 []]];
    nd (NItem) 4 5 4 16
     [nd (NParagraph) 4 8 4 16
      [nd (NText (u "Child two")) 4 8 4 16 []]];
    nd (NItem) 5 5 5 18
     [nd (NParagraph) 5 8 5 18
      [nd (NText (u "Child three")) 5 8 5 18 []]];
    nd (NItem) 6 5 6 17
     [nd (NParagraph) 6 8 6 17
      [nd (NText (u "Child four")) 6 8 6 17 []]];
    nd (NItem) 7 5 7 17
     [nd (NParagraph) 7 8 7 17
      [nd (NText (u "Child five")) 7 8 7 17 []]];
    nd (NItem) 8 5 8 16
     [nd (NParagraph) 8 8 8 16
      [nd (NText (u "Child six")) 8 8 8 16 []]];
    nd (NItem) 9 5 9 18
     [nd (NParagraph) 9 8 9 18
      [nd (NText (u "Child seven")) 9 8 9 18 []]];
    nd (NItem) 10 5 10 18
     [nd (NParagraph) 10 8 10 18
      [nd (NText (u "Child eight")) 10 8 10 18 []]];
    nd (NItem) 11 5 11 17
     [nd (NParagraph) 11 8 11 17
      [nd (NText (u "Child nine")) 11 8 11 17 []]];
    nd (NItem) 12 5 12 17
     [nd (NParagraph) 12 9 12 17
      [nd (NText (u "Child ten")) 12 9 12 17 []]]]]]])
 [Has (u "1.  Parent one");
  Has (u "2.  Parent two");
  Has (u "    1)  Child one");
  Has (u "    9)  Child nine");
  Has (u "    10) Child ten")] = true.
Proof. vm_compute. reflexivity. Qed.
Example test_undefined_reference_warning : run_source (u "See [undefined reference] for details.") (default_options)
 (nd (NDocument) 1 1 1 38
 [nd (NParagraph) 1 1 1 38
  [nd (NText (u "See [undefined reference] for details.")) 1 1 1 38 []]])
 [Warned 1;
  WarnHas 0 (u "undefined reference");
  WarnHas 0 (u "undefined reference link")] = true.
Proof. vm_compute. reflexivity. Qed.
Example test_defined_reference_no_warning : run_source (u "See [defined reference] for details." ++ [c_nl] ++ [c_nl] ++ u "[defined reference]: https://example.com") (default_options)
 (nd (NDocument) 1 1 3 40
 [nd (NParagraph) 1 1 1 36
  [nd (NText (u "See ")) 1 1 1 4 []; nd (NLink (u "https://example.com") ([])) 1 5 1 23
   [nd (NText (u "defined reference")) 1 6 1 22 []]; nd (NText (u " for details.")) 1 24 1 36 []]])
 [Warned 0] = true.
Proof. vm_compute. reflexivity. Qed.
Example test_multiple_undefined_references_warning : run_source (u "See [foo] and [bar] for details." ++ [c_nl] ++ [c_nl] ++ u "[foo]: https://example.com") (default_options)
 (nd (NDocument) 1 1 3 26
 [nd (NParagraph) 1 1 1 32
  [nd (NText (u "See ")) 1 1 1 4 []; nd (NLink (u "https://example.com") ([])) 1 5 1 9
   [nd (NText (u "foo")) 1 6 1 8 []]; nd (NText (u " and [bar] for details.")) 1 10 1 32 []]])
 [Warned 1;
  WarnHas 0 (u "bar")] = true.
Proof. vm_compute. reflexivity. Qed.
Example test_undefined_full_reference_warning : run_source (u "See [some text][undefined-label] for details.") (default_options)
 (nd (NDocument) 1 1 1 45
 [nd (NParagraph) 1 1 1 45
  [nd (NText (u "See [some text][undefined-label] for details.")) 1 1 1 45 []]])
 [Warned 1;
  WarnHas 0 (u "undefined-label")] = true.
Proof. vm_compute. reflexivity. Qed.
Example test_abbreviation_definition_no_warning : run_source (u "The HTML specification is maintained by the W3C." ++ [c_nl] ++ [c_nl] ++ u "*[HTML]: Hyper Text Markup Language" ++ [c_nl] ++ u "*[W3C]: World Wide Web Consortium") (default_options)
 (nd (NDocument) 1 1 4 33
 [nd (NParagraph) 1 1 1 48
  [nd (NText (u "The HTML specification is maintained by the W3C.")) 1 1 1 48 []];
 nd (NParagraph) 3 1 4 33
  [nd (NText (u "*[HTML]: Hyper Text Markup Language")) 3 1 3 35 []; nd (NSoftBreak) 3 36 3 36 []; nd (NText (u "*[W3C]: World Wide Web Consortium")) 4 1 4 33 []]])
 [Warned 0] = true.
Proof. vm_compute. reflexivity. Qed.
Example test_abbreviation_with_undefined_reference : run_source (u "See the HTML spec and [undefined ref]." ++ [c_nl] ++ [c_nl] ++ u "*[HTML]: Hyper Text Markup Language") (default_options)
 (nd (NDocument) 1 1 3 35
 [nd (NParagraph) 1 1 1 38
  [nd (NText (u "See the HTML spec and [undefined ref].")) 1 1 1 38 []];
 nd (NParagraph) 3 1 3 35
  [nd (NText (u "*[HTML]: Hyper Text Markup Language")) 3 1 3 35 []]])
 [Warned 1;
  WarnHas 0 (u "undefined ref")] = true.
Proof. vm_compute. reflexivity. Qed.
Example test_reference_after_abbreviation_no_warning : run_source (u "See [RabbitMQ] for more." ++ [c_nl] ++ [c_nl] ++ u "*[AMQP]: Advanced Message Queuing Protocol" ++ [c_nl] ++ u "[RabbitMQ]: https://www.rabbitmq.com/") (default_options)
 (nd (NDocument) 1 1 4 37
 [nd (NParagraph) 1 1 1 24
  [nd (NText (u "See [RabbitMQ] for more.")) 1 1 1 24 []];
 nd (NParagraph) 3 1 4 37
  [nd (NText (u "*[AMQP]: Advanced Message Queuing Protocol")) 3 1 3 42 []; nd (NSoftBreak) 3 43 3 43 []; nd (NText (u "[RabbitMQ]: https://www.rabbitmq.com/")) 4 1 4 37 []]])
 [Warned 0] = true.
Proof. vm_compute. reflexivity. Qed.
Example test_no_warning_in_disable_enable_region : run_source (u "Normal text." ++ [c_nl] ++ [c_nl] ++ u "<!-- hongdown-disable -->" ++ [c_nl] ++ [c_nl] ++ u "[undefined ref] should not warn." ++ [c_nl] ++ [c_nl] ++ u "<!-- hongdown-enable -->" ++ [c_nl] ++ [c_nl] ++ u "More normal text.") (default_options)
 (nd (NDocument) 1 1 9 17
 [nd (NParagraph) 1 1 1 12
  [nd (NText (u "Normal text.")) 1 1 1 12 []];
 nd (NHtmlBlock (u "<!-- hongdown-disable -->" ++ [c_nl])) 3 1 3 25 [];
 nd (NParagraph) 5 1 5 32
  [nd (NText (u "[undefined ref] should not warn.")) 5 1 5 32 []];
 nd (NHtmlBlock (u "<!-- hongdown-enable -->" ++ [c_nl])) 7 1 7 24 [];
 nd (NParagraph) 9 1 9 17
  [nd (NText (u "More normal text.")) 9 1 9 17 []]])
 [Warned 0] = true.
Proof. vm_compute. reflexivity. Qed.
Example test_no_warning_in_disable_next_line : run_source (u "<!-- hongdown-disable-next-line -->" ++ [c_nl] ++ u "[undefined ref] should not warn." ++ [c_nl] ++ [c_nl] ++ u "Normal text.") (default_options)
 (nd (NDocument) 1 1 4 12
 [nd (NHtmlBlock (u "<!-- hongdown-disable-next-line -->" ++ [c_nl])) 1 1 1 35 [];
 nd (NParagraph) 2 1 2 32
  [nd (NText (u "[undefined ref] should not warn.")) 2 1 2 32 []];
 nd (NParagraph) 4 1 4 12
  [nd (NText (u "Normal text.")) 4 1 4 12 []]])
 [Warned 0] = true.
Proof. vm_compute. reflexivity. Qed.
Example test_no_warning_in_disable_file : run_source (u "<!-- hongdown-disable-file -->" ++ [c_nl] ++ [c_nl] ++ u "[undefined ref] should not warn.") (default_options)
 (nd (NDocument) 1 1 3 32
 [nd (NHtmlBlock (u "<!-- hongdown-disable-file -->" ++ [c_nl])) 1 1 1 30 [];
 nd (NParagraph) 3 1 3 32
  [nd (NText (u "[undefined ref] should not warn.")) 3 1 3 32 []]])
 [Warned 0] = true.
Proof. vm_compute. reflexivity. Qed.
Example test_no_warning_in_disable_next_section : run_source (u "First section" ++ [c_nl] ++ u "-------------" ++ [c_nl] ++ [c_nl] ++ u "Normal text." ++ [c_nl] ++ [c_nl] ++ u "<!-- hongdown-disable-next-section -->" ++ [c_nl] ++ [c_nl] ++ u "[undefined ref] should not warn." ++ [c_nl] ++ [c_nl] ++ u "Second section" ++ [c_nl] ++ u "--------------" ++ [c_nl] ++ [c_nl] ++ u "Normal text.") (default_options)
 (nd (NDocument) 1 1 13 12
 [nd (NHeading 2) 1 1 2 13
  [nd (NText (u "First section")) 1 1 1 13 []];
 nd (NParagraph) 4 1 4 12
  [nd (NText (u "Normal text.")) 4 1 4 12 []];
 nd (NHtmlBlock (u "<!-- hongdown-disable-next-section -->" ++ [c_nl])) 6 1 6 38 [];
 nd (NParagraph) 8 1 8 32
  [nd (NText (u "[undefined ref] should not warn.")) 8 1 8 32 []];
 nd (NHeading 2) 10 1 11 14
  [nd (NText (u "Second section")) 10 1 10 14 []];
 nd (NParagraph) 13 1 13 12
  [nd (NText (u "Normal text.")) 13 1 13 12 []]])
 [Warned 0] = true.
Proof. vm_compute. reflexivity. Qed.
Example test_warning_before_disable_region : run_source (u "[undefined before] warning expected." ++ [c_nl] ++ [c_nl] ++ u "<!-- hongdown-disable -->" ++ [c_nl] ++ [c_nl] ++ u "[undefined inside] no warning." ++ [c_nl] ++ [c_nl] ++ u "<!-- hongdown-enable -->" ++ [c_nl] ++ [c_nl] ++ u "Normal text.") (default_options)
 (nd (NDocument) 1 1 9 12
 [nd (NParagraph) 1 1 1 36
  [nd (NText (u "[undefined before] warning expected.")) 1 1 1 36 []];
 nd (NHtmlBlock (u "<!-- hongdown-disable -->" ++ [c_nl])) 3 1 3 25 [];
 nd (NParagraph) 5 1 5 30
  [nd (NText (u "[undefined inside] no warning.")) 5 1 5 30 []];
 nd (NHtmlBlock (u "<!-- hongdown-enable -->" ++ [c_nl])) 7 1 7 24 [];
 nd (NParagraph) 9 1 9 12
  [nd (NText (u "Normal text.")) 9 1 9 12 []]])
 [Warned 1;
  WarnHas 0 (u "undefined before")] = true.
Proof. vm_compute. reflexivity. Qed.
Example test_warning_after_enable : run_source (u "Normal text." ++ [c_nl] ++ [c_nl] ++ u "<!-- hongdown-disable -->" ++ [c_nl] ++ [c_nl] ++ u "[undefined inside] no warning." ++ [c_nl] ++ [c_nl] ++ u "<!-- hongdown-enable -->" ++ [c_nl] ++ [c_nl] ++ u "[undefined after] warning expected.") (default_options)
 (nd (NDocument) 1 1 9 35
 [nd (NParagraph) 1 1 1 12
  [nd (NText (u "Normal text.")) 1 1 1 12 []];
 nd (NHtmlBlock (u "<!-- hongdown-disable -->" ++ [c_nl])) 3 1 3 25 [];
 nd (NParagraph) 5 1 5 30
  [nd (NText (u "[undefined inside] no warning.")) 5 1 5 30 []];
 nd (NHtmlBlock (u "<!-- hongdown-enable -->" ++ [c_nl])) 7 1 7 24 [];
 nd (NParagraph) 9 1 9 35
  [nd (NText (u "[undefined after] warning expected.")) 9 1 9 35 []]])
 [Warned 1;
  WarnHas 0 (u "undefined after")] = true.
Proof. vm_compute. reflexivity. Qed.
Example test_warning_after_disable_next_line : run_source (u "<!-- hongdown-disable-next-line -->" ++ [c_nl] ++ u "[undefined on disabled line] no warning." ++ [c_nl] ++ [c_nl] ++ u "[undefined after] warning expected.") (default_options)
 (nd (NDocument) 1 1 4 35
 [nd (NHtmlBlock (u "<!-- hongdown-disable-next-line -->" ++ [c_nl])) 1 1 1 35 [];
 nd (NParagraph) 2 1 2 40
  [nd (NText (u "[undefined on disabled line] no warning.")) 2 1 2 40 []];
 nd (NParagraph) 4 1 4 35
  [nd (NText (u "[undefined after] warning expected.")) 4 1 4 35 []]])
 [Warned 1;
  WarnHas 0 (u "undefined after")] = true.
Proof. vm_compute. reflexivity. Qed.
Example test_warning_after_disable_next_section : run_source (u "First section" ++ [c_nl] ++ u "-------------" ++ [c_nl] ++ [c_nl] ++ u "Normal text." ++ [c_nl] ++ [c_nl] ++ u "<!-- hongdown-disable-next-section -->" ++ [c_nl] ++ [c_nl] ++ u "[undefined in disabled] no warning." ++ [c_nl] ++ [c_nl] ++ u "Second section" ++ [c_nl] ++ u "--------------" ++ [c_nl] ++ [c_nl] ++ u "[undefined in second] warning expected.") (default_options)
 (nd (NDocument) 1 1 13 39
 [nd (NHeading 2) 1 1 2 13
  [nd (NText (u "First section")) 1 1 1 13 []];
 nd (NParagraph) 4 1 4 12
  [nd (NText (u "Normal text.")) 4 1 4 12 []];
 nd (NHtmlBlock (u "<!-- hongdown-disable-next-section -->" ++ [c_nl])) 6 1 6 38 [];
 nd (NParagraph) 8 1 8 35
  [nd (NText (u "[undefined in disabled] no warning.")) 8 1 8 35 []];
 nd (NHeading 2) 10 1 11 14
  [nd (NText (u "Second section")) 10 1 10 14 []];
 nd (NParagraph) 13 1 13 39
  [nd (NText (u "[undefined in second] warning expected.")) 13 1 13 39 []]])
 [Warned 1;
  WarnHas 0 (u "undefined in second")] = true.
Proof. vm_compute. reflexivity. Qed.
Example test_heading_with_image : run (default_options)
 (nd (NDocument) 1 1 1 27
 [nd (NHeading 1) 1 1 1 27
  [nd (NImage (u "./logo.svg") ([])) 1 3 1 21
   [nd (NText (u "logo")) 1 5 1 8 []]; nd (NText (u " Title")) 1 22 1 27 []]])
 [Is (u "![logo](./logo.svg) Title" ++ [c_nl] ++ u "=========================" ++ [c_nl])] = true.
Proof. vm_compute. reflexivity. Qed.
Example test_heading_with_image_no_alt : run (default_options)
 (nd (NDocument) 1 1 1 23
 [nd (NHeading 1) 1 1 1 23
  [nd (NImage (u "./logo.svg") ([])) 1 3 1 17 []; nd (NText (u " Title")) 1 18 1 23 []]])
 [Is (u "![](./logo.svg) Title" ++ [c_nl] ++ u "=====================" ++ [c_nl])] = true.
Proof. vm_compute. reflexivity. Qed.
Example test_heading_with_image_only : run (default_options)
 (nd (NDocument) 1 1 1 21
 [nd (NHeading 1) 1 1 1 21
  [nd (NImage (u "./logo.svg") ([])) 1 3 1 21
   [nd (NText (u "logo")) 1 5 1 8 []]]])
 [Is (u "![logo](./logo.svg)" ++ [c_nl] ++ u "===================" ++ [c_nl])] = true.
Proof. vm_compute. reflexivity. Qed.
Example test_setext_heading_with_image_on_previous_line : run (default_options)
 (nd (NDocument) 1 1 3 5
 [nd (NHeading 1) 1 1 3 5
  [nd (NImage (u "./logo.svg") ([])) 1 1 1 15 []; nd (NSoftBreak) 1 16 1 16 []; nd (NText (u "Title")) 2 1 2 5 []]])
 [Is (u "![](./logo.svg) Title" ++ [c_nl] ++ u "=====================" ++ [c_nl])] = true.
Proof. vm_compute. reflexivity. Qed.
Example test_wrap_multiline_paragraph_no_orphan_words : run (default_options)
 (nd (NDocument) 1 1 4 29
 [nd (NParagraph) 1 1 4 29
  [nd (NText (u "app's appropriate handler for ")) 1 1 1 30 []; nd (NCode (u "/users/[handle]")) 1 31 1 47 []; nd (NText (u ".  Or if you define an actor dispatcher")) 1 48 1 86 []; nd (NSoftBreak) 1 87 1 87 []; nd (NText (u "for ")) 2 1 2 4 []; nd (NCode (u "/users/{handle}")) 2 5 2 21 []; nd (NText (u " in Fedify, and the request is made with ")) 2 22 2 62 []; nd (NCode (u "Accept: application/activity+json")) 2 63 3 26 []; nd (NText (u " header, Fedify will dispatch the request to the")) 3 27 3 74 []; nd (NSoftBreak) 3 75 3 75 []; nd (NText (u "appropriate actor dispatcher.")) 4 1 4 29 []]])
 [Not (Has (u "the" ++ [c_nl] ++ u "appropriate"))] = true.
Proof. vm_compute. reflexivity. Qed.
Example test_definition_list_in_blockquote : run (default_options)
 (nd (NDocument) 1 1 2 22
 [nd (NBlockQuote) 1 1 2 22
  [nd (NDescriptionList) 1 3 2 22
   [nd (NDescriptionItem) 1 3 2 22
    [nd (NDescriptionTerm) 1 3 1 6
     [nd (NParagraph) 1 3 1 6
      [nd (NText (u "Term")) 1 3 1 6 []]];
    nd (NDescriptionDetails) 2 3 2 22
     [nd (NParagraph) 2 7 2 22
      [nd (NText (u "Definition here.")) 2 7 2 22 []]]]]]])
 [Is (u "> Term" ++ [c_nl] ++ u "> :   Definition here." ++ [c_nl])] = true.
Proof. vm_compute. reflexivity. Qed.
Example test_definition_list_in_blockquote_multiline : run (default_options)
 (nd (NDocument) 1 1 5 28
 [nd (NBlockQuote) 1 1 5 28
  [nd (NDescriptionList) 1 3 5 28
   [nd (NDescriptionItem) 1 3 2 65
    [nd (NDescriptionTerm) 1 3 1 13
     [nd (NParagraph) 1 3 1 13
      [nd (NCode (u "FC<Props>")) 1 3 1 13 []]];
    nd (NDescriptionDetails) 2 3 2 65
     [nd (NParagraph) 2 7 2 65
      [nd (NText (u "Applies the type argument ")) 2 7 2 32 []; nd (NCode (u "Props")) 2 33 2 39 []; nd (NText (u " to the generic type ")) 2 40 2 60 []; nd (NCode (u "FC")) 2 61 2 64 []; nd (NText (u ".")) 2 65 2 65 []]]];
   nd (NDescriptionItem) 4 3 5 28
    [nd (NDescriptionTerm) 4 3 4 15
     [nd (NParagraph) 4 3 4 15
      [nd (NCode (u "<Container>")) 4 3 4 15 []]];
    nd (NDescriptionDetails) 5 3 5 28
     [nd (NParagraph) 5 7 5 28
      [nd (NText (u "Opens a component tag.")) 5 7 5 28 []]]]]]])
 [Has (u "> :   ");
  Not (Has ([c_nl] ++ u ":   "))] = true.
Proof. vm_compute. reflexivity. Qed.
Example test_definition_list_with_alert : run (default_options)
 (nd (NDocument) 1 1 6 28
 [nd (NDescriptionList) 1 1 6 28
  [nd (NDescriptionItem) 1 1 6 28
   [nd (NDescriptionTerm) 1 1 1 4
    [nd (NParagraph) 1 1 1 4
     [nd (NText (u "term")) 1 1 1 4 []]];
   nd (NDescriptionDetails) 2 1 6 28
    [nd (NParagraph) 2 5 2 20
     [nd (NText (u "First paragraph.")) 2 5 2 20 []];
    nd (NAlert Note) 4 5 6 28
     [nd (NParagraph) 5 7 6 28
      [nd (NText (u "This is a note.")) 5 7 5 21 []; nd (NSoftBreak) 5 22 5 22 []; nd (NText (u "It has multiple lines.")) 6 7 6 28 []]]]]]])
 [Is (u "term" ++ [c_nl] ++ u ":   First paragraph." ++ [c_nl] ++ [c_nl] ++ u "    > [!NOTE]" ++ [c_nl] ++ u "    > This is a note." ++ [c_nl] ++ u "    > It has multiple lines." ++ [c_nl])] = true.
Proof. vm_compute. reflexivity. Qed.
Example test_definition_list_with_blockquote : run (default_options)
 (nd (NDocument) 1 1 5 26
 [nd (NDescriptionList) 1 1 5 26
  [nd (NDescriptionItem) 1 1 5 26
   [nd (NDescriptionTerm) 1 1 1 4
    [nd (NParagraph) 1 1 1 4
     [nd (NText (u "term")) 1 1 1 4 []]];
   nd (NDescriptionDetails) 2 1 5 26
    [nd (NParagraph) 2 5 2 20
     [nd (NText (u "First paragraph.")) 2 5 2 20 []];
    nd (NBlockQuote) 4 5 5 26
     [nd (NParagraph) 4 7 5 26
      [nd (NText (u "This is a quote.")) 4 7 4 22 []; nd (NSoftBreak) 4 23 4 23 []; nd (NText (u "With multiple lines.")) 5 7 5 26 []]]]]]])
 [Is (u "term" ++ [c_nl] ++ u ":   First paragraph." ++ [c_nl] ++ [c_nl] ++ u "    > This is a quote." ++ [c_nl] ++ u "    > With multiple lines." ++ [c_nl])] = true.
Proof. vm_compute. reflexivity. Qed.
Example test_definition_list_with_alert_as_first_child : run (default_options)
 (nd (NDocument) 1 1 3 20
 [nd (NDescriptionList) 1 1 3 20
  [nd (NDescriptionItem) 1 1 3 20
   [nd (NDescriptionTerm) 1 1 1 4
    [nd (NParagraph) 1 1 1 4
     [nd (NText (u "term")) 1 1 1 4 []]];
   nd (NDescriptionDetails) 2 1 3 20
    [nd (NAlert Tip) 2 5 3 20
     [nd (NParagraph) 3 7 3 20
      [nd (NText (u "This is a tip.")) 3 7 3 20 []]]]]]])
 [Is (u "term" ++ [c_nl] ++ u ":" ++ [c_nl] ++ u "    > [!TIP]" ++ [c_nl] ++ u "    > This is a tip." ++ [c_nl])] = true.
Proof. vm_compute. reflexivity. Qed.
Example test_code_block_default_no_language : run (default_options)
 (nd (NDocument) 1 1 3 3
 [nd (NCodeBlock ([]) (u "some code" ++ [c_nl])) 1 1 3 3 []])
 [Is (u "~~~~" ++ [c_nl] ++ u "some code" ++ [c_nl] ++ u "~~~~" ++ [c_nl])] = true.
Proof. vm_compute. reflexivity. Qed.
Example test_code_block_custom_default_language : run (with_default_language (u "text") default_options)
 (nd (NDocument) 1 1 3 3
 [nd (NCodeBlock ([]) (u "some code" ++ [c_nl])) 1 1 3 3 []])
 [Is (u "~~~~ text" ++ [c_nl] ++ u "some code" ++ [c_nl] ++ u "~~~~" ++ [c_nl])] = true.
Proof. vm_compute. reflexivity. Qed.
Example test_shortcut_link_followed_by_footnote : run_source (u "See [example](https://example.com)[^1] for details." ++ [c_nl] ++ [c_nl] ++ u "[^1]: Footnote.") (default_options)
 (nd (NDocument) 1 1 3 15
 [nd (NParagraph) 1 1 1 51
  [nd (NText (u "See ")) 1 1 1 4 []; nd (NLink (u "https://example.com") ([])) 1 5 1 34
   [nd (NText (u "example")) 1 6 1 12 []]; nd (NFootnoteReference (u "1")) 1 35 1 38 []; nd (NText (u " for details.")) 1 39 1 51 []];
 nd (NFootnoteDefinition (u "1")) 3 1 3 15
  [nd (NParagraph) 3 7 3 15
   [nd (NText (u "Footnote.")) 3 7 3 15 []]]])
 [Has (u "[example][][^1]")] = true.
Proof. vm_compute. reflexivity. Qed.
Example test_multiple_trailing_html_comments : run_source (u "See [docs](https://example.com/docs) here." ++ [c_nl] ++ [c_nl] ++ u "<!-- Comment 1 -->" ++ [c_nl] ++ u "<!-- Comment 2 -->" ++ [c_nl]) (default_options)
 (nd (NDocument) 1 1 4 18
 [nd (NParagraph) 1 1 1 42
  [nd (NText (u "See ")) 1 1 1 4 []; nd (NLink (u "https://example.com/docs") ([])) 1 5 1 36
   [nd (NText (u "docs")) 1 6 1 9 []]; nd (NText (u " here.")) 1 37 1 42 []];
 nd (NHtmlBlock (u "<!-- Comment 1 -->" ++ [c_nl])) 3 1 3 18 [];
 nd (NHtmlBlock (u "<!-- Comment 2 -->" ++ [c_nl])) 4 1 4 18 []])
 [Ends ([c_nl] ++ [c_nl] ++ u "<!-- Comment 1 -->" ++ [c_nl] ++ u "<!-- Comment 2 -->" ++ [c_nl])] = true.
Proof. vm_compute. reflexivity. Qed.
Example test_html_comment_not_at_end_stays_in_place : run_source (u "First paragraph." ++ [c_nl] ++ [c_nl] ++ u "<!-- Middle comment -->" ++ [c_nl] ++ [c_nl] ++ u "Second paragraph with [link](https://example.com)." ++ [c_nl]) (default_options)
 (nd (NDocument) 1 1 5 50
 [nd (NParagraph) 1 1 1 16
  [nd (NText (u "First paragraph.")) 1 1 1 16 []];
 nd (NHtmlBlock (u "<!-- Middle comment -->" ++ [c_nl])) 3 1 3 23 [];
 nd (NParagraph) 5 1 5 50
  [nd (NText (u "Second paragraph with ")) 5 1 5 22 []; nd (NLink (u "https://example.com") ([])) 5 23 5 49
   [nd (NText (u "link")) 5 24 5 27 []]; nd (NText (u ".")) 5 50 5 50 []]])
 [LineBefore (u "Middle comment") (u "Second paragraph")] = true.
Proof. vm_compute. reflexivity. Qed.
Example test_definition_list_in_alert_with_multiple_items : run (default_options)
 (nd (NDocument) 1 1 14 74
 [nd (NAlert Tip) 1 1 14 74
  [nd (NParagraph) 2 3 3 12
   [nd (NText (u "It takes several kinds of objects as an argument, such as ")) 2 3 2 60 []; nd (NCode (u "Actor")) 2 61 2 67 []; nd (NText (u ", ")) 2 68 2 69 []; nd (NCode (u "string")) 2 70 2 77 []; nd (NText (u ",")) 2 78 2 78 []; nd (NSoftBreak) 2 79 2 79 []; nd (NText (u "and ")) 3 3 3 6 []; nd (NCode (u "URL")) 3 7 3 11 []; nd (NText (u ":")) 3 12 3 12 []];
  nd (NDescriptionList) 5 3 14 74
   [nd (NDescriptionItem) 5 3 6 26
    [nd (NDescriptionTerm) 5 3 5 9
     [nd (NParagraph) 5 3 5 9
      [nd (NCode (u "Actor")) 5 3 5 9 []]];
    nd (NDescriptionDetails) 6 3 6 26
     [nd (NParagraph) 6 7 6 26
      [nd (NText (u "The actor to follow.")) 6 7 6 26 []]]];
   nd (NDescriptionItem) 8 3 10 57
    [nd (NDescriptionTerm) 8 3 8 7
     [nd (NParagraph) 8 3 8 7
      [nd (NCode (u "URL")) 8 3 8 7 []]];
    nd (NDescriptionDetails) 9 3 10 57
     [nd (NParagraph) 9 7 10 57
      [nd (NText (u "The URI of the actor to follow.")) 9 7 9 37 []; nd (NSoftBreak) 9 38 9 38 []; nd (NText (u "E.g., ")) 10 7 10 12 []; nd (NCode (u "new URL(""https://example.com/users/alice"")")) 10 13 10 56 []; nd (NText (u ".")) 10 57 10 57 []]]];
   nd (NDescriptionItem) 12 3 14 74
    [nd (NDescriptionTerm) 12 3 12 10
     [nd (NParagraph) 12 3 12 10
      [nd (NCode (u "string")) 12 3 12 10 []]];
    nd (NDescriptionDetails) 13 3 14 74
     [nd (NParagraph) 13 7 14 74
      [nd (NText (u "The URI or the fediverse handle of the actor to follow.")) 13 7 13 61 []; nd (NSoftBreak) 13 62 13 62 []; nd (NText (u "E.g., ")) 14 7 14 12 []; nd (NCode (u """https://example.com/users/alice""")) 14 13 14 47 []; nd (NText (u " or ")) 14 48 14 51 []; nd (NCode (u """@alice@example.com""")) 14 52 14 73 []; nd (NText (u ".")) 14 74 14 74 []]]]]]])
 [Not (Has ([c_nl] ++ [c_nl] ++ u "> `URL`"));
  Not (Has ([c_nl] ++ [c_nl] ++ u "> `string`"));
  AnyOf [Has (u ">" ++ [c_nl] ++ u "> `URL`"); Has (u ">" ++ [c_nl] ++ u ">" ++ [c_nl] ++ u "> `URL`")]] = true.
Proof. vm_compute. reflexivity. Qed.
Example test_nested_blockquote_preserved : run (default_options)
 (nd (NDocument) 1 1 3 9
 [nd (NBlockQuote) 1 1 3 9
  [nd (NParagraph) 1 3 1 7
   [nd (NText (u "Outer")) 1 3 1 7 []];
  nd (NBlockQuote) 3 3 3 9
   [nd (NParagraph) 3 5 3 9
    [nd (NText (u "Inner")) 3 5 3 9 []]]]])
 [AnyOf [Has (u "> > Inner"); Has (u ">> Inner")]] = true.
Proof. vm_compute. reflexivity. Qed.
Example test_nested_blockquote_with_alert : run (default_options)
 (nd (NDocument) 1 1 4 43
 [nd (NBlockQuote) 1 1 4 43
  [nd (NParagraph) 1 3 1 19
   [nd (NText (u "Outer blockquote:")) 1 3 1 19 []];
  nd (NAlert Tip) 3 3 4 43
   [nd (NParagraph) 4 5 4 43
    [nd (NText (u "This is a tip inside nested blockquote.")) 4 5 4 43 []]]]])
 [AnyOf [Has (u "> > [!TIP]"); Has (u ">> [!TIP]")];
  AnyOf [Has (u "> > This is a tip"); Has (u ">> This is a tip")]] = true.
Proof. vm_compute. reflexivity. Qed.
Example test_nested_blockquote_with_definition_list : run (default_options)
 (nd (NDocument) 1 1 10 29
 [nd (NBlockQuote) 1 1 10 29
  [nd (NParagraph) 1 3 1 48
   [nd (NText (u "Here's a blockquote inside another blockquote:")) 1 3 1 48 []];
  nd (NAlert Tip) 3 3 10 29
   [nd (NParagraph) 4 5 4 38
    [nd (NText (u "It takes several kinds of objects:")) 4 5 4 38 []];
   nd (NDescriptionList) 6 5 10 29
    [nd (NDescriptionItem) 6 5 7 28
     [nd (NDescriptionTerm) 6 5 6 11
      [nd (NParagraph) 6 5 6 11
       [nd (NCode (u "Actor")) 6 5 6 11 []]];
     nd (NDescriptionDetails) 7 5 7 28
      [nd (NParagraph) 7 9 7 28
       [nd (NText (u "The actor to follow.")) 7 9 7 28 []]]];
    nd (NDescriptionItem) 9 5 10 29
     [nd (NDescriptionTerm) 9 5 9 9
      [nd (NParagraph) 9 5 9 9
       [nd (NCode (u "URL")) 9 5 9 9 []]];
     nd (NDescriptionDetails) 10 5 10 29
      [nd (NParagraph) 10 9 10 29
       [nd (NText (u "The URI of the actor.")) 10 9 10 29 []]]]]]]])
 [Not (Has ([c_nl] ++ u "> `Actor`" ++ [c_nl] ++ u "> :"));
  AnyOf [Has (u "> >" ++ [c_nl] ++ u "> > `URL`"); Has (u "> >" ++ [c_nl] ++ u "> >" ++ [c_nl] ++ u "> > `URL`")]] = true.
Proof. vm_compute. reflexivity. Qed.
Example test_footnote_reference_definitions_stay_below_footnote : run (default_options)
 (nd (NDocument) 1 1 12 56
 [nd (NHeading 1) 1 1 2 4
  [nd (NText (u "Text")) 1 1 1 4 []];
 nd (NParagraph) 4 1 5 39
  [nd (NText (u "The text.")) 4 1 4 9 []; nd (NFootnoteReference (u "1")) 4 10 4 13 []; nd (NSoftBreak) 4 14 4 14 []; nd (NText (u "Blocks are usually used for paragraphs.")) 5 1 5 39 []];
 nd (NFootnoteDefinition (u "1")) 7 1 9 53
  [nd (NParagraph) 7 7 9 53
   [nd (NText (u "More precisely, the ")) 7 7 7 26 []; nd (NCode (u "Text")) 7 27 7 32 []; nd (NText (u " type has two type parameters: the first one")) 7 33 7 76 []; nd (NSoftBreak) 7 77 7 77 []; nd (NText (u "is the type of the element: ")) 8 7 8 34 []; nd (NCode (u """block""")) 8 35 8 43 []; nd (NText (u " or ")) 8 44 8 47 []; nd (NCode (u """inline""")) 8 48 8 57 []; nd (NText (u ", and the second one")) 8 58 8 77 []; nd (NSoftBreak) 8 78 8 78 []; nd (NText (u "is ")) 9 7 9 9 []; nd (NLink (u "https://fedify.dev/manual/federation#tcontextdata") ([])) 9 10 9 25
    [nd (NCode (u "TContextData")) 9 11 9 24 []]; nd (NText (u ", the ")) 9 26 9 31 []; nd (NLink (u "https://fedify.dev/manual/context") ([])) 9 32 9 52
    [nd (NText (u "Fedify context data")) 9 33 9 51 []]; nd (NText (u ".")) 9 53 9 53 []]]])
 [Before (u "[^1]:") (u "[`TContextData`]:");
  Before (u "[^1]:") (u "[Fedify context data]:")] = true.
Proof. vm_compute. reflexivity. Qed.
Example test_footnote_references_at_section_boundary : run (default_options)
 (nd (NDocument) 1 1 21 18
 [nd (NHeading 1) 1 1 2 5
  [nd (NText (u "Title")) 1 1 1 5 []];
 nd (NParagraph) 4 1 4 23
  [nd (NText (u "Introduction paragraph.")) 4 1 4 23 []];
 nd (NHeading 2) 7 1 8 13
  [nd (NText (u "First section")) 7 1 7 13 []];
 nd (NParagraph) 10 1 10 28
  [nd (NText (u "Some text with footnote.")) 10 1 10 24 []; nd (NFootnoteReference (u "1")) 10 25 10 28 []];
 nd (NHeading 2) 18 1 19 14
  [nd (NText (u "Second section")) 18 1 18 14 []];
 nd (NParagraph) 21 1 21 18
  [nd (NText (u "More content here.")) 21 1 21 18 []];
 nd (NFootnoteDefinition (u "1")) 12 1 12 53
  [nd (NParagraph) 12 7 12 53
   [nd (NText (u "This footnote references ")) 12 7 12 31 []; nd (NLink (u "https://example.com/link1") ([])) 12 32 12 40
    [nd (NCode (u "Link1")) 12 33 12 39 []]; nd (NText (u " and ")) 12 41 12 45 []; nd (NLink (u "https://example.com/link2") ([])) 12 46 12 52
    [nd (NText (u "Link2")) 12 47 12 51 []]; nd (NText (u ".")) 12 53 12 53 []]]])
 [AllOf [Before (u "First section") (u "[^1]:"); Before (u "[^1]:") (u "Second section")];
  AllOf [Before (u "First section") (u "[`Link1`]:"); Before (u "[`Link1`]:") (u "Second section")];
  AllOf [Before (u "First section") (u "[Link2]:"); Before (u "[Link2]:") (u "Second section")];
  Before (u "[^1]:") (u "[`Link1`]:");
  Before (u "[^1]:") (u "[Link2]:")] = true.
Proof. vm_compute. reflexivity. Qed.
Example test_preserve_html_entities : run_source (u "HTML에는 &lt;strong&gt;태그 등 여러 가지 태그가 있습니다.") (default_options)
 (nd (NDocument) 1 1 1 73
 [nd (NParagraph) 1 1 1 73
  [nd (NText (u "HTML에는 <strong>태그 등 여러 가지 태그가 있습니다.")) 1 1 1 73 []]])
 [Is (u "HTML에는 &lt;strong&gt;태그 등 여러 가지 태그가 있습니다." ++ [c_nl])] = true.
Proof. vm_compute. reflexivity. Qed.
Example test_preserve_html_entity_amp : run_source (u "Tom &amp; Jerry") (default_options)
 (nd (NDocument) 1 1 1 15
 [nd (NParagraph) 1 1 1 15
  [nd (NText (u "Tom & Jerry")) 1 1 1 15 []]])
 [Is (u "Tom &amp; Jerry" ++ [c_nl])] = true.
Proof. vm_compute. reflexivity. Qed.
Example test_preserve_html_entity_nbsp : run_source (u "Hello&nbsp;world") (default_options)
 (nd (NDocument) 1 1 1 16
 [nd (NParagraph) 1 1 1 16
  [nd (NText (u "Hello world")) 1 1 1 16 []]])
 [Is (u "Hello&nbsp;world" ++ [c_nl])] = true.
Proof. vm_compute. reflexivity. Qed.
Example test_preserve_numeric_html_entity : run_source (u "Entity: &#60;tag&#62;") (default_options)
 (nd (NDocument) 1 1 1 21
 [nd (NParagraph) 1 1 1 21
  [nd (NText (u "Entity: <tag>")) 1 1 1 21 []]])
 [Is (u "Entity: &#60;tag&#62;" ++ [c_nl])] = true.
Proof. vm_compute. reflexivity. Qed.
Example test_preserve_actual_html_tags : run_source (u "HTML에는 <strong>태그 등</strong> 여러 가지 태그가 있습니다.") (default_options)
 (nd (NDocument) 1 1 1 76
 [nd (NParagraph) 1 1 1 76
  [nd (NText (u "HTML에는 ")) 1 1 1 11 []; nd (NHtmlInline (u "<strong>")) 1 12 1 19 []; nd (NText (u "태그 등")) 1 20 1 29 []; nd (NHtmlInline (u "</strong>")) 1 30 1 38 []; nd (NText (u " 여러 가지 태그가 있습니다.")) 1 39 1 76 []]])
 [Is (u "HTML에는 <strong>태그 등</strong> 여러 가지 태그가 있습니다." ++ [c_nl])] = true.
Proof. vm_compute. reflexivity. Qed.
Example test_mixed_html_and_entities : run_source (u "Use <code>&lt;div&gt;</code> for containers.") (default_options)
 (nd (NDocument) 1 1 1 44
 [nd (NParagraph) 1 1 1 44
  [nd (NText (u "Use ")) 1 1 1 4 []; nd (NHtmlInline (u "<code>")) 1 5 1 10 []; nd (NText (u "<div>")) 1 11 1 21 []; nd (NHtmlInline (u "</code>")) 1 22 1 28 []; nd (NText (u " for containers.")) 1 29 1 44 []]])
 [Is (u "Use <code>&lt;div&gt;</code> for containers." ++ [c_nl])] = true.
Proof. vm_compute. reflexivity. Qed.
Example test_footnote_definitions_before_reference_definitions : run (default_options)
 (nd (NDocument) 1 1 7 23
 [nd (NHeading 2) 1 1 2 7
  [nd (NText (u "Section")) 1 1 1 7 []];
 nd (NParagraph) 4 1 4 31
  [nd (NText (u "See ")) 4 1 4 4 []; nd (NLink (u "https://example.com") ([])) 4 5 4 13
   [nd (NText (u "example")) 4 6 4 12 []]; nd (NText (u " and footnote")) 4 14 4 26 []; nd (NFootnoteReference (u "1")) 4 27 4 30 []; nd (NText (u ".")) 4 31 4 31 []];
 nd (NFootnoteDefinition (u "1")) 7 1 7 23
  [nd (NParagraph) 7 7 7 23
   [nd (NText (u "Footnote content.")) 7 7 7 23 []]]])
 [Before (u "[^1]:") (u "[example]:")] = true.
Proof. vm_compute. reflexivity. Qed.
Example test_numeric_footnotes_sorted_at_end : run (default_options)
 (nd (NDocument) 1 1 8 33
 [nd (NParagraph) 1 1 2 54
  [nd (NText (u "This")) 1 1 1 4 []; nd (NFootnoteReference (u "2")) 1 5 1 8 []; nd (NText (u " sentence")) 1 9 1 17 []; nd (NFootnoteReference (u "non-numeric-b")) 1 18 1 33 []; nd (NText (u " has some footnotes.")) 1 34 1 53 []; nd (NFootnoteReference (u "1")) 1 54 1 57 []; nd (NSoftBreak) 1 58 1 58 []; nd (NText (u "This sentence")) 2 1 2 13 []; nd (NFootnoteReference (u "non-numeric-a")) 2 14 2 29 []; nd (NText (u " also has a footnote.")) 2 30 2 50 []; nd (NFootnoteReference (u "3")) 2 51 2 54 []];
 nd (NFootnoteDefinition (u "2")) 4 1 4 34
  [nd (NParagraph) 4 7 4 34
   [nd (NText (u "This is the second footnote.")) 4 7 4 34 []]];
 nd (NFootnoteDefinition (u "non-numeric-b")) 5 1 5 55
  [nd (NParagraph) 5 19 5 55
   [nd (NText (u "This is another non-numeric footnote.")) 5 19 5 55 []]];
 nd (NFootnoteDefinition (u "1")) 6 1 6 33
  [nd (NParagraph) 6 7 6 33
   [nd (NText (u "This is the first footnote.")) 6 7 6 33 []]];
 nd (NFootnoteDefinition (u "non-numeric-a")) 7 1 7 49
  [nd (NParagraph) 7 19 7 49
   [nd (NText (u "This is a non-numeric footnote.")) 7 19 7 49 []]];
 nd (NFootnoteDefinition (u "3")) 8 1 8 33
  [nd (NParagraph) 8 7 8 33
   [nd (NText (u "This is the third footnote.")) 8 7 8 33 []]]])
 [AllOf [Before (u "[^non-numeric-b]:") (u "[^1]:"); Before (u "[^non-numeric-a]:") (u "[^1]:")];
  AllOf [Before (u "[^1]:") (u "[^2]:"); Before (u "[^2]:") (u "[^3]:")]] = true.
Proof. vm_compute. reflexivity. Qed.
Example test_single_numeric_footnote_not_sorted : run (default_options)
 (nd (NDocument) 1 1 5 21
 [nd (NParagraph) 1 1 1 29
  [nd (NText (u "Text")) 1 1 1 4 []; nd (NFootnoteReference (u "foo")) 1 5 1 10 []; nd (NText (u " and")) 1 11 1 14 []; nd (NFootnoteReference (u "1")) 1 15 1 18 []; nd (NText (u " and")) 1 19 1 22 []; nd (NFootnoteReference (u "bar")) 1 23 1 28 []; nd (NText (u ".")) 1 29 1 29 []];
 nd (NFootnoteDefinition (u "foo")) 3 1 3 21
  [nd (NParagraph) 3 9 3 21
   [nd (NText (u "Foo footnote.")) 3 9 3 21 []]];
 nd (NFootnoteDefinition (u "1")) 4 1 4 23
  [nd (NParagraph) 4 7 4 23
   [nd (NText (u "Numeric footnote.")) 4 7 4 23 []]];
 nd (NFootnoteDefinition (u "bar")) 5 1 5 21
  [nd (NParagraph) 5 9 5 21
   [nd (NText (u "Bar footnote.")) 5 9 5 21 []]]])
 [AllOf [Before (u "[^foo]:") (u "[^1]:"); Before (u "[^1]:") (u "[^bar]:")]] = true.
Proof. vm_compute. reflexivity. Qed.
Example test_hard_line_break_in_blockquote : run (default_options)
 (nd (NDocument) 1 1 2 45
 [nd (NBlockQuote) 1 1 2 45
  [nd (NParagraph) 1 3 2 45
   [nd (NText (u "This is a block quote with a hard line break.")) 1 3 1 47 []; nd (NLineBreak) 1 48 1 50 []; nd (NText (u "This is the second line of the block quote.")) 2 3 2 45 []]]])
 [Is (u "> This is a block quote with a hard line break.  " ++ [c_nl] ++ u "> This is the second line of the block quote." ++ [c_nl])] = true.
Proof. vm_compute. reflexivity. Qed.
Example test_hard_line_break_in_nested_blockquote : run (default_options)
 (nd (NDocument) 1 1 2 34
 [nd (NBlockQuote) 1 1 2 34
  [nd (NBlockQuote) 1 3 2 34
   [nd (NParagraph) 1 5 2 34
    [nd (NText (u "This is a nested quote.")) 1 5 1 27 []; nd (NLineBreak) 1 28 1 30 []; nd (NText (u "This is after hard line break.")) 2 5 2 34 []]]]])
 [AnyOf [Has (u "> > This is after hard line break."); Has (u ">> This is after hard line break.")]] = true.
Proof. vm_compute. reflexivity. Qed.
Example test_multiple_hard_line_breaks_in_blockquote : run (default_options)
 (nd (NDocument) 1 1 3 13
 [nd (NBlockQuote) 1 1 3 13
  [nd (NParagraph) 1 3 3 13
   [nd (NText (u "Line one.")) 1 3 1 11 []; nd (NLineBreak) 1 12 1 14 []; nd (NText (u "Line two.")) 2 3 2 11 []; nd (NLineBreak) 2 12 2 14 []; nd (NText (u "Line three.")) 3 3 3 13 []]]])
 [Is (u "> Line one.  " ++ [c_nl] ++ u "> Line two.  " ++ [c_nl] ++ u "> Line three." ++ [c_nl])] = true.
Proof. vm_compute. reflexivity. Qed.
Example test_hard_line_break_in_alert : run (default_options)
 (nd (NDocument) 1 1 3 31
 [nd (NAlert Note) 1 1 3 31
  [nd (NParagraph) 2 3 3 31
   [nd (NText (u "First line.")) 2 3 2 13 []; nd (NLineBreak) 2 14 2 16 []; nd (NText (u "Second line after hard break.")) 3 3 3 31 []]]])
 [Has (u "> Second line after hard break.")] = true.
Proof. vm_compute. reflexivity. Qed.
Example test_hard_line_break_in_blockquote_with_emphasis : run (default_options)
 (nd (NDocument) 1 1 2 16
 [nd (NBlockQuote) 1 1 2 16
  [nd (NParagraph) 1 3 2 16
   [nd (NEmph) 1 3 1 9
    [nd (NText (u "First")) 1 4 1 8 []]; nd (NText (u " line.")) 1 10 1 15 []; nd (NLineBreak) 1 16 1 18 []; nd (NEmph) 2 3 2 10
    [nd (NText (u "Second")) 2 4 2 9 []]; nd (NText (u " line.")) 2 11 2 16 []]]])
 [Is (u "> *First* line.  " ++ [c_nl] ++ u "> *Second* line." ++ [c_nl])] = true.
Proof. vm_compute. reflexivity. Qed.
Example test_multiline_code_span_in_list_item : run_source (u " -  Changed the type of `TextFormatterOptions.value` to `(value: unknown," ++ [c_nl] ++ u "       inspect: (value: unknown, options?: { colors?: boolean }) => string)" ++ [c_nl] ++ u "       => string` (was `(value: unknown) => string`).") (default_options)
 (nd (NDocument) 1 1 3 53
 [nd (NList Bullet true) 1 2 3 53
  [nd (NItem) 1 2 3 53
   [nd (NParagraph) 1 5 3 53
    [nd (NText (u "Changed the type of ")) 1 5 1 24 []; nd (NCode (u "TextFormatterOptions.value")) 1 25 1 52 []; nd (NText (u " to ")) 1 53 1 56 []; nd (NCode (u "(value: unknown, inspect: (value: unknown, options?: { colors?: boolean }) => string) => string")) 1 57 3 17 []; nd (NText (u " (was ")) 3 18 3 23 []; nd (NCode (u "(value: unknown) => string")) 3 24 3 51 []; nd (NText (u ").")) 3 52 3 53 []]]]])
 [Not (Has (u "i        nspect"));
  Not (Has (u "=        >"));
  Has (u "(value: unknown, inspect:")] = true.
Proof. vm_compute. reflexivity. Qed.
Example test_code_block_empty_line_in_blockquote : run (default_options)
 (nd (NDocument) 1 1 7 6
 [nd (NBlockQuote) 1 1 7 6
  [nd (NParagraph) 1 3 1 42
   [nd (NText (u "Here is a code block with an empty line:")) 1 3 1 42 []];
  nd (NCodeBlock (u "python") (u "def example_function():" ++ [c_nl] ++ [c_nl] ++ u "    print(""Hello, World!"")" ++ [c_nl])) 3 3 7 6 []]])
 [Is (u "> Here is a code block with an empty line:" ++ [c_nl] ++ u ">" ++ [c_nl] ++ u "> ~~~~ python" ++ [c_nl] ++ u "> def example_function():" ++ [c_nl] ++ u ">" ++ [c_nl] ++ u ">     print(""Hello, World!"")" ++ [c_nl] ++ u "> ~~~~" ++ [c_nl])] = true.
Proof. vm_compute. reflexivity. Qed.
Example test_code_block_empty_line_in_definition_list : run (default_options)
 (nd (NDocument) 1 1 11 23
 [nd (NDescriptionList) 1 1 11 23
  [nd (NDescriptionItem) 1 1 8 8
   [nd (NDescriptionTerm) 1 1 1 3
    [nd (NParagraph) 1 1 1 3
     [nd (NText (u "Foo")) 1 1 1 3 []]];
   nd (NDescriptionDetails) 2 1 8 8
    [nd (NParagraph) 2 5 2 53
     [nd (NText (u "The following is a code block with an empty line.")) 2 5 2 53 []];
    nd (NCodeBlock (u "python") (u "print(""Hello"")" ++ [c_nl] ++ [c_nl] ++ u "print(""world"")" ++ [c_nl])) 4 5 8 8 []]];
  nd (NDescriptionItem) 10 1 11 23
   [nd (NDescriptionTerm) 10 1 10 3
    [nd (NParagraph) 10 1 10 3
     [nd (NText (u "Bar")) 10 1 10 3 []]];
   nd (NDescriptionDetails) 11 1 11 23
    [nd (NParagraph) 11 5 11 23
     [nd (NText (u "Another definition.")) 11 5 11 23 []]]]]])
 [Is (u "Foo" ++ [c_nl] ++ u ":   The following is a code block with an empty line." ++ [c_nl] ++ [c_nl] ++ u "    ~~~~ python" ++ [c_nl] ++ u "    print(""Hello"")" ++ [c_nl] ++ [c_nl] ++ u "    print(""world"")" ++ [c_nl] ++ u "    ~~~~" ++ [c_nl] ++ [c_nl] ++ u "Bar" ++ [c_nl] ++ u ":   Another definition." ++ [c_nl])] = true.
Proof. vm_compute. reflexivity. Qed.
Example test_serialize_table_fullwidth_center_alignment : run (default_options)
 (nd (NDocument) 1 1 4 14
 [nd (NTable [ACenter; ACenter]) 1 1 4 14
  [nd (NTableRow) 1 1 1 16
   [nd (NTableCell) 1 3 1 6
    [nd (NText (u "Item")) 1 3 1 6 []]; nd (NTableCell) 1 10 1 14
    [nd (NText (u "Value")) 1 10 1 14 []]];
  nd (NTableRow) 3 1 3 11
   [nd (NTableCell) 3 3 3 5
    [nd (NText (u "가")) 3 3 3 5 []]; nd (NTableCell) 3 9 3 9
    [nd (NText (u "A")) 3 9 3 9 []]];
  nd (NTableRow) 4 1 4 14
   [nd (NTableCell) 4 3 4 6
    [nd (NText (u "ABCD")) 4 3 4 6 []]; nd (NTableCell) 4 10 4 12
    [nd (NText (u "나")) 4 10 4 12 []]]]])
 [Has (u "가");
  Has (u "나");
  LineCount 4] = true.
Proof. vm_compute. reflexivity. Qed.
Example test_wrap_korean_text_at_display_width : run (with_line_width (20) default_options)
 (nd (NDocument) 1 1 1 38
 [nd (NParagraph) 1 1 1 38
  [nd (NText (u "안녕하세요 안녕하세요 세계")) 1 1 1 38 []]])
 [Is (u "안녕하세요" ++ [c_nl] ++ u "안녕하세요 세계" ++ [c_nl])] = true.
Proof. vm_compute. reflexivity. Qed.
Example test_wrap_mixed_ascii_korean : run (with_line_width (20) default_options)
 (nd (NDocument) 1 1 1 33
 [nd (NParagraph) 1 1 1 33
  [nd (NText (u "Hello 안녕 World more text here")) 1 1 1 33 []]])
 [Is (u "Hello 안녕 World" ++ [c_nl] ++ u "more text here" ++ [c_nl])] = true.
Proof. vm_compute. reflexivity. Qed.
Example test_wrap_japanese_text : run (with_line_width (30) default_options)
 (nd (NDocument) 1 1 1 82
 [nd (NParagraph) 1 1 1 82
  [nd (NText (u "これは 日本語の テストです 行の折り返しが 正しく動作する")) 1 1 1 82 []]])
 [Is (u "これは 日本語の テストです" ++ [c_nl] ++ u "行の折り返しが 正しく動作する" ++ [c_nl])] = true.
Proof. vm_compute. reflexivity. Qed.
Example test_wrap_chinese_text : run (with_line_width (30) default_options)
 (nd (NDocument) 1 1 1 71
 [nd (NParagraph) 1 1 1 71
  [nd (NText (u "这是 一个中文 测试 它应该在 正确的显示 宽度处换行")) 1 1 1 71 []]])
 [Is (u "这是 一个中文 测试 它应该在" ++ [c_nl] ++ u "正确的显示 宽度处换行" ++ [c_nl])] = true.
Proof. vm_compute. reflexivity. Qed.
Example test_wrap_korean_in_list_item : run (with_line_width (40) default_options)
 (nd (NDocument) 1 1 1 90
 [nd (NList Bullet true) 1 2 1 90
  [nd (NItem) 1 2 1 90
   [nd (NParagraph) 1 5 1 90
    [nd (NText (u "이것은 매우 긴 한국어 문장입니다 여러 줄로 나누어져야 합니다")) 1 5 1 90 []]]]])
 [Is (u " -  이것은 매우 긴 한국어 문장입니다 여러" ++ [c_nl] ++ u "    줄로 나누어져야 합니다" ++ [c_nl])] = true.
Proof. vm_compute. reflexivity. Qed.
Example test_korean_line_exactly_at_width_limit : run (with_line_width (20) default_options)
 (nd (NDocument) 1 1 1 28
 [nd (NParagraph) 1 1 1 28
  [nd (NText (u "가나다라마 바사아자")) 1 1 1 28 []]])
 [Is (u "가나다라마 바사아자" ++ [c_nl])] = true.
Proof. vm_compute. reflexivity. Qed.
Example test_setext_h1_with_fullwidth_characters : run (default_options)
 (nd (NDocument) 1 1 2 5
 [nd (NHeading 1) 1 1 2 5
  [nd (NText (u "한글 제목")) 1 1 1 13 []]])
 [Is (u "한글 제목" ++ [c_nl] ++ u "=========" ++ [c_nl])] = true.
Proof. vm_compute. reflexivity. Qed.
