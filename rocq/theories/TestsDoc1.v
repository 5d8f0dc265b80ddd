(** The tests of src/serializer/tests.rs, run on the model: part 1 of 4.  Each
    input is given as the tree comrak builds for it, written out by a separate
    reading of Markdown (not verified), so these check the transcription of the
    serializer, not comrak. *)
From Coq Require Import Bool Arith NArith String List.
From Verif Require Import Base OptsModel CodeModel TableModel AstModel StateModel SerModel NounsData TestsBase.
Import ListNotations.

Example test_serialize_plain_text : run (default_options)
 (nd (NDocument) 1 1 1 13
 [nd (NParagraph) 1 1 1 13
  [nd (NText (u "Hello, world!")) 1 1 1 13 []]])
 [Is (u "Hello, world!" ++ [c_nl])] = true.
Proof. vm_compute. reflexivity. Qed.
Example test_serialize_multiline_paragraph : run (default_options)
 (nd (NDocument) 1 1 2 6
 [nd (NParagraph) 1 1 2 6
  [nd (NText (u "Hello")) 1 1 1 5 []; nd (NSoftBreak) 1 6 1 6 []; nd (NText (u "world!")) 2 1 2 6 []]])
 [Is (u "Hello" ++ [c_nl] ++ u "world!" ++ [c_nl])] = true.
Proof. vm_compute. reflexivity. Qed.
Example test_serialize_h1_setext : run (default_options)
 (nd (NDocument) 1 1 1 16
 [nd (NHeading 1) 1 1 1 16
  [nd (NText (u "Document Title")) 1 3 1 16 []]])
 [Is (u "Document Title" ++ [c_nl] ++ u "==============" ++ [c_nl])] = true.
Proof. vm_compute. reflexivity. Qed.
Example test_serialize_h2_setext : run (default_options)
 (nd (NDocument) 1 1 1 15
 [nd (NHeading 2) 1 1 1 15
  [nd (NText (u "Section Name")) 1 4 1 15 []]])
 [Is (u "Section Name" ++ [c_nl] ++ u "------------" ++ [c_nl])] = true.
Proof. vm_compute. reflexivity. Qed.
Example test_serialize_h3_atx : run (default_options)
 (nd (NDocument) 1 1 1 14
 [nd (NHeading 3) 1 1 1 14
  [nd (NText (u "Subsection")) 1 5 1 14 []]])
 [Is (u "### Subsection" ++ [c_nl])] = true.
Proof. vm_compute. reflexivity. Qed.
Example test_serialize_h4_atx : run (default_options)
 (nd (NDocument) 1 1 1 20
 [nd (NHeading 4) 1 1 1 20
  [nd (NText (u "Deep Subsection")) 1 6 1 20 []]])
 [Is (u "#### Deep Subsection" ++ [c_nl])] = true.
Proof. vm_compute. reflexivity. Qed.
Example test_serialize_unordered_list_single_item : run (default_options)
 (nd (NDocument) 1 1 1 10
 [nd (NList Bullet true) 1 1 1 10
  [nd (NItem) 1 1 1 10
   [nd (NParagraph) 1 3 1 10
    [nd (NText (u "Item one")) 1 3 1 10 []]]]])
 [Is (u " -  Item one" ++ [c_nl])] = true.
Proof. vm_compute. reflexivity. Qed.
Example test_serialize_unordered_list_multiple_items : run (default_options)
 (nd (NDocument) 1 1 3 12
 [nd (NList Bullet true) 1 1 3 12
  [nd (NItem) 1 1 1 10
   [nd (NParagraph) 1 3 1 10
    [nd (NText (u "Item one")) 1 3 1 10 []]];
  nd (NItem) 2 1 2 10
   [nd (NParagraph) 2 3 2 10
    [nd (NText (u "Item two")) 2 3 2 10 []]];
  nd (NItem) 3 1 3 12
   [nd (NParagraph) 3 3 3 12
    [nd (NText (u "Item three")) 3 3 3 12 []]]]])
 [Is (u " -  Item one" ++ [c_nl] ++ u " -  Item two" ++ [c_nl] ++ u " -  Item three" ++ [c_nl])] = true.
Proof. vm_compute. reflexivity. Qed.
Example test_serialize_ordered_list_single_item : run (default_options)
 (nd (NDocument) 1 1 1 13
 [nd (NList Ordered true) 1 1 1 13
  [nd (NItem) 1 1 1 13
   [nd (NParagraph) 1 4 1 13
    [nd (NText (u "First item")) 1 4 1 13 []]]]])
 [Is (u "1.  First item" ++ [c_nl])] = true.
Proof. vm_compute. reflexivity. Qed.
Example test_serialize_ordered_list_multiple_items : run (default_options)
 (nd (NDocument) 1 1 3 8
 [nd (NList Ordered true) 1 1 3 8
  [nd (NItem) 1 1 1 8
   [nd (NParagraph) 1 4 1 8
    [nd (NText (u "First")) 1 4 1 8 []]];
  nd (NItem) 2 1 2 9
   [nd (NParagraph) 2 4 2 9
    [nd (NText (u "Second")) 2 4 2 9 []]];
  nd (NItem) 3 1 3 8
   [nd (NParagraph) 3 4 3 8
    [nd (NText (u "Third")) 3 4 3 8 []]]]])
 [Is (u "1.  First" ++ [c_nl] ++ u "2.  Second" ++ [c_nl] ++ u "3.  Third" ++ [c_nl])] = true.
Proof. vm_compute. reflexivity. Qed.
Example test_serialize_tight_list : run (default_options)
 (nd (NDocument) 1 1 3 14
 [nd (NList Bullet true) 1 2 3 14
  [nd (NItem) 1 2 1 12
   [nd (NParagraph) 1 5 1 12
    [nd (NText (u "Item one")) 1 5 1 12 []]];
  nd (NItem) 2 2 2 12
   [nd (NParagraph) 2 5 2 12
    [nd (NText (u "Item two")) 2 5 2 12 []]];
  nd (NItem) 3 2 3 14
   [nd (NParagraph) 3 5 3 14
    [nd (NText (u "Item three")) 3 5 3 14 []]]]])
 [Is (u " -  Item one" ++ [c_nl] ++ u " -  Item two" ++ [c_nl] ++ u " -  Item three" ++ [c_nl])] = true.
Proof. vm_compute. reflexivity. Qed.
Example test_serialize_loose_list : run (default_options)
 (nd (NDocument) 1 1 5 14
 [nd (NList Bullet false) 1 2 5 14
  [nd (NItem) 1 2 1 12
   [nd (NParagraph) 1 5 1 12
    [nd (NText (u "Item one")) 1 5 1 12 []]];
  nd (NItem) 3 2 3 12
   [nd (NParagraph) 3 5 3 12
    [nd (NText (u "Item two")) 3 5 3 12 []]];
  nd (NItem) 5 2 5 14
   [nd (NParagraph) 5 5 5 14
    [nd (NText (u "Item three")) 5 5 5 14 []]]]])
 [Is (u " -  Item one" ++ [c_nl] ++ [c_nl] ++ u " -  Item two" ++ [c_nl] ++ [c_nl] ++ u " -  Item three" ++ [c_nl])] = true.
Proof. vm_compute. reflexivity. Qed.
Example test_serialize_loose_list_with_content : run (default_options)
 (nd (NDocument) 1 1 3 46
 [nd (NList Bullet false) 1 2 3 46
  [nd (NItem) 1 2 1 55
   [nd (NParagraph) 1 5 1 55
    [nd (NEmph) 1 5 1 23
     [nd (NText (u "Zero dependencies")) 1 6 1 22 []]; nd (NText (u ": LogTape has zero dependencies.")) 1 24 1 55 []]];
  nd (NItem) 3 2 3 46
   [nd (NParagraph) 3 5 3 46
    [nd (NEmph) 3 5 3 21
     [nd (NText (u "Library support")) 3 6 3 20 []]; nd (NText (u ": Designed for libraries.")) 3 22 3 46 []]]]])
 [Has (u " -  *Zero dependencies*");
  Has ([c_nl] ++ [c_nl] ++ u " -  *Library support*")] = true.
Proof. vm_compute. reflexivity. Qed.
Example test_serialize_fenced_code_block : run (default_options)
 (nd (NDocument) 1 1 3 3
 [nd (NCodeBlock (u "rust") (u "fn main() {}" ++ [c_nl])) 1 1 3 3 []])
 [Is (u "~~~~ rust" ++ [c_nl] ++ u "fn main() {}" ++ [c_nl] ++ u "~~~~" ++ [c_nl])] = true.
Proof. vm_compute. reflexivity. Qed.
Example test_serialize_fenced_code_block_no_language : run (default_options)
 (nd (NDocument) 1 1 3 3
 [nd (NCodeBlock ([]) (u "some code" ++ [c_nl])) 1 1 3 3 []])
 [Is (u "~~~~" ++ [c_nl] ++ u "some code" ++ [c_nl] ++ u "~~~~" ++ [c_nl])] = true.
Proof. vm_compute. reflexivity. Qed.
Example test_serialize_fenced_code_block_with_tildes_inside : run (default_options)
 (nd (NDocument) 1 1 5 3
 [nd (NCodeBlock ([]) (u "~~~~" ++ [c_nl] ++ u "inner fence" ++ [c_nl] ++ u "~~~~" ++ [c_nl])) 1 1 5 3 []])
 [Is (u "~~~~~" ++ [c_nl] ++ u "~~~~" ++ [c_nl] ++ u "inner fence" ++ [c_nl] ++ u "~~~~" ++ [c_nl] ++ u "~~~~~" ++ [c_nl])] = true.
Proof. vm_compute. reflexivity. Qed.
Example test_serialize_block_quote_single_line : run (default_options)
 (nd (NDocument) 1 1 1 18
 [nd (NBlockQuote) 1 1 1 18
  [nd (NParagraph) 1 3 1 18
   [nd (NText (u "This is a quote.")) 1 3 1 18 []]]])
 [Is (u "> This is a quote." ++ [c_nl])] = true.
Proof. vm_compute. reflexivity. Qed.
Example test_serialize_block_quote_multiple_lines : run (default_options)
 (nd (NDocument) 1 1 2 11
 [nd (NBlockQuote) 1 1 2 11
  [nd (NParagraph) 1 3 2 11
   [nd (NText (u "Line one.")) 1 3 1 11 []; nd (NSoftBreak) 1 12 1 12 []; nd (NText (u "Line two.")) 2 3 2 11 []]]])
 [Is (u "> Line one." ++ [c_nl] ++ u "> Line two." ++ [c_nl])] = true.
Proof. vm_compute. reflexivity. Qed.
Example test_serialize_block_quote_multiple_paragraphs : run (default_options)
 (nd (NDocument) 1 1 3 19
 [nd (NBlockQuote) 1 1 3 19
  [nd (NParagraph) 1 3 1 18
   [nd (NText (u "First paragraph.")) 1 3 1 18 []];
  nd (NParagraph) 3 3 3 19
   [nd (NText (u "Second paragraph.")) 3 3 3 19 []]]])
 [Is (u "> First paragraph." ++ [c_nl] ++ u ">" ++ [c_nl] ++ u "> Second paragraph." ++ [c_nl])] = true.
Proof. vm_compute. reflexivity. Qed.
Example test_serialize_emphasis : run (default_options)
 (nd (NDocument) 1 1 1 26
 [nd (NParagraph) 1 1 1 26
  [nd (NText (u "This is ")) 1 1 1 8 []; nd (NEmph) 1 9 1 20
   [nd (NText (u "emphasized")) 1 10 1 19 []]; nd (NText (u " text.")) 1 21 1 26 []]])
 [Is (u "This is *emphasized* text." ++ [c_nl])] = true.
Proof. vm_compute. reflexivity. Qed.
Example test_serialize_underscore_emphasis_preserved : run_source (u "This is _emphasized_ text.") (default_options)
 (nd (NDocument) 1 1 1 26
 [nd (NParagraph) 1 1 1 26
  [nd (NText (u "This is ")) 1 1 1 8 []; nd (NEmph) 1 9 1 20
   [nd (NText (u "emphasized")) 1 10 1 19 []]; nd (NText (u " text.")) 1 21 1 26 []]])
 [Is (u "This is _emphasized_ text." ++ [c_nl])] = true.
Proof. vm_compute. reflexivity. Qed.
Example test_serialize_mixed_emphasis_preserved : run_source (u "This is _underscore_ and *asterisk* emphasis.") (default_options)
 (nd (NDocument) 1 1 1 45
 [nd (NParagraph) 1 1 1 45
  [nd (NText (u "This is ")) 1 1 1 8 []; nd (NEmph) 1 9 1 20
   [nd (NText (u "underscore")) 1 10 1 19 []]; nd (NText (u " and ")) 1 21 1 25 []; nd (NEmph) 1 26 1 35
   [nd (NText (u "asterisk")) 1 27 1 34 []]; nd (NText (u " emphasis.")) 1 36 1 45 []]])
 [Is (u "This is _underscore_ and *asterisk* emphasis." ++ [c_nl])] = true.
Proof. vm_compute. reflexivity. Qed.
Example test_serialize_emphasis_with_asterisk_uses_underscore : run (default_options)
 (nd (NDocument) 1 1 1 24
 [nd (NParagraph) 1 1 1 24
  [nd (NText (u "This is ")) 1 1 1 8 []; nd (NEmph) 1 9 1 18
   [nd (NText (u "foo*bar")) 1 10 1 17 []]; nd (NText (u " text.")) 1 19 1 24 []]])
 [Is (u "This is _foo\*bar_ text." ++ [c_nl])] = true.
Proof. vm_compute. reflexivity. Qed.
Example test_serialize_strong_with_asterisk_uses_underscore : run (default_options)
 (nd (NDocument) 1 1 1 26
 [nd (NParagraph) 1 1 1 26
  [nd (NText (u "This is ")) 1 1 1 8 []; nd (NStrong) 1 9 1 20
   [nd (NText (u "foo*bar")) 1 11 1 18 []]; nd (NText (u " text.")) 1 21 1 26 []]])
 [Is (u "This is __foo\*bar__ text." ++ [c_nl])] = true.
Proof. vm_compute. reflexivity. Qed.
Example test_serialize_strong : run (default_options)
 (nd (NDocument) 1 1 1 24
 [nd (NParagraph) 1 1 1 24
  [nd (NText (u "This is ")) 1 1 1 8 []; nd (NStrong) 1 9 1 18
   [nd (NText (u "strong")) 1 11 1 16 []]; nd (NText (u " text.")) 1 19 1 24 []]])
 [Is (u "This is **strong** text." ++ [c_nl])] = true.
Proof. vm_compute. reflexivity. Qed.
Example test_serialize_inline_code : run (default_options)
 (nd (NDocument) 1 1 1 28
 [nd (NParagraph) 1 1 1 28
  [nd (NText (u "Use the ")) 1 1 1 8 []; nd (NCode (u "format()")) 1 9 1 18 []; nd (NText (u " function.")) 1 19 1 28 []]])
 [Is (u "Use the `format()` function." ++ [c_nl])] = true.
Proof. vm_compute. reflexivity. Qed.
Example test_serialize_external_link_becomes_reference : run (default_options)
 (nd (NDocument) 1 1 1 41
 [nd (NParagraph) 1 1 1 41
  [nd (NText (u "Visit ")) 1 1 1 6 []; nd (NLink (u "https://www.rust-lang.org/") ([])) 1 7 1 40
   [nd (NText (u "Rust")) 1 8 1 11 []]; nd (NText (u ".")) 1 41 1 41 []]])
 [Has (u "Visit [Rust].");
  Has (u "[Rust]: https://www.rust-lang.org/")] = true.
Proof. vm_compute. reflexivity. Qed.
Example test_serialize_external_link_with_title_becomes_reference : run (default_options)
 (nd (NDocument) 1 1 1 61
 [nd (NParagraph) 1 1 1 61
  [nd (NText (u "Visit ")) 1 1 1 6 []; nd (NLink (u "https://www.rust-lang.org/") (u "The Rust Language")) 1 7 1 60
   [nd (NText (u "Rust")) 1 8 1 11 []]; nd (NText (u ".")) 1 61 1 61 []]])
 [Has (u "Visit [Rust].");
  Has (u "[Rust]: https://www.rust-lang.org/ ""The Rust Language""")] = true.
Proof. vm_compute. reflexivity. Qed.
Example test_reference_order_preserved : run (default_options)
 (nd (NDocument) 1 1 1 79
 [nd (NParagraph) 1 1 1 79
  [nd (NText (u "See ")) 1 1 1 4 []; nd (NLink (u "https://foo.com") ([])) 1 5 1 26
   [nd (NText (u "foo")) 1 6 1 8 []]; nd (NText (u ", ")) 1 27 1 28 []; nd (NLink (u "https://bar.com") ([])) 1 29 1 50
   [nd (NText (u "bar")) 1 30 1 32 []]; nd (NText (u ", and ")) 1 51 1 56 []; nd (NLink (u "https://baz.com") ([])) 1 57 1 78
   [nd (NText (u "baz")) 1 58 1 60 []]; nd (NText (u ".")) 1 79 1 79 []]])
 [AllOf [Before (u "[foo]:") (u "[bar]:"); Before (u "[bar]:") (u "[baz]:")]] = true.
Proof. vm_compute. reflexivity. Qed.
Example test_numeric_references_sorted_at_end : run (default_options)
 (nd (NDocument) 1 1 1 91
 [nd (NParagraph) 1 1 1 91
  [nd (NText (u "See ")) 1 1 1 4 []; nd (NLink (u "https://foo.com") ([])) 1 5 1 26
   [nd (NText (u "foo")) 1 6 1 8 []]; nd (NText (u ", ")) 1 27 1 28 []; nd (NLink (u "https://2.com") ([])) 1 29 1 46
   [nd (NText (u "2")) 1 30 1 30 []]; nd (NText (u ", ")) 1 47 1 48 []; nd (NLink (u "https://bar.com") ([])) 1 49 1 70
   [nd (NText (u "bar")) 1 50 1 52 []]; nd (NText (u ", ")) 1 71 1 72 []; nd (NLink (u "https://1.com") ([])) 1 73 1 90
   [nd (NText (u "1")) 1 74 1 74 []]; nd (NText (u ".")) 1 91 1 91 []]])
 [Before (u "[foo]:") (u "[bar]:");
  Before (u "[bar]:") (u "[1]:");
  Before (u "[1]:") (u "[2]:")] = true.
Proof. vm_compute. reflexivity. Qed.
Example test_single_numeric_reference_not_sorted : run (default_options)
 (nd (NDocument) 1 1 1 71
 [nd (NParagraph) 1 1 1 71
  [nd (NText (u "See ")) 1 1 1 4 []; nd (NLink (u "https://foo.com") ([])) 1 5 1 26
   [nd (NText (u "foo")) 1 6 1 8 []]; nd (NText (u ", ")) 1 27 1 28 []; nd (NLink (u "https://1.com") ([])) 1 29 1 46
   [nd (NText (u "1")) 1 30 1 30 []]; nd (NText (u ", ")) 1 47 1 48 []; nd (NLink (u "https://bar.com") ([])) 1 49 1 70
   [nd (NText (u "bar")) 1 50 1 52 []]; nd (NText (u ".")) 1 71 1 71 []]])
 [AllOf [Before (u "[foo]:") (u "[1]:"); Before (u "[1]:") (u "[bar]:")]] = true.
Proof. vm_compute. reflexivity. Qed.
Example test_hash_numeric_references_sorted : run (default_options)
 (nd (NDocument) 1 1 1 60
 [nd (NParagraph) 1 1 1 60
  [nd (NText (u "See ")) 1 1 1 4 []; nd (NLink (u "https://issue/456") ([])) 1 5 1 29
   [nd (NText (u "#456")) 1 6 1 9 []]; nd (NText (u " and ")) 1 30 1 34 []; nd (NLink (u "https://issue/123") ([])) 1 35 1 59
   [nd (NText (u "#123")) 1 36 1 39 []]; nd (NText (u ".")) 1 60 1 60 []]])
 [Before (u "[#123]:") (u "[#456]:")] = true.
Proof. vm_compute. reflexivity. Qed.
Example test_serialize_yaml_front_matter : run (default_options)
 (nd (NDocument) 1 1 6 9
 [nd (NFrontMatter (u "---" ++ [c_nl] ++ u "title: Hello" ++ [c_nl] ++ u "author: World" ++ [c_nl] ++ u "---" ++ [c_nl] ++ [c_nl])) 1 1 4 3 [];
 nd (NHeading 1) 6 1 6 9
  [nd (NText (u "Heading")) 6 3 6 9 []]])
 [Is (u "---" ++ [c_nl] ++ u "title: Hello" ++ [c_nl] ++ u "author: World" ++ [c_nl] ++ u "---" ++ [c_nl] ++ [c_nl] ++ u "Heading" ++ [c_nl] ++ u "=======" ++ [c_nl])] = true.
Proof. vm_compute. reflexivity. Qed.
Example test_serialize_yaml_front_matter_only : run (default_options)
 (nd (NDocument) 1 1 5 13
 [nd (NFrontMatter (u "---" ++ [c_nl] ++ u "title: Test" ++ [c_nl] ++ u "---" ++ [c_nl] ++ [c_nl])) 1 1 3 3 [];
 nd (NParagraph) 5 1 5 13
  [nd (NText (u "Some content.")) 5 1 5 13 []]])
 [Is (u "---" ++ [c_nl] ++ u "title: Test" ++ [c_nl] ++ u "---" ++ [c_nl] ++ [c_nl] ++ u "Some content." ++ [c_nl])] = true.
Proof. vm_compute. reflexivity. Qed.
Example test_serialize_two_blank_lines_before_h2 : run (default_options)
 (nd (NDocument) 1 1 5 10
 [nd (NHeading 1) 1 1 1 7
  [nd (NText (u "Title")) 1 3 1 7 []];
 nd (NParagraph) 3 1 3 10
  [nd (NText (u "Paragraph.")) 3 1 3 10 []];
 nd (NHeading 2) 5 1 5 10
  [nd (NText (u "Section")) 5 4 5 10 []]])
 [Has (u "Paragraph." ++ [c_nl] ++ [c_nl] ++ [c_nl] ++ u "Section")] = true.
Proof. vm_compute. reflexivity. Qed.
Example test_serialize_one_blank_line_for_empty_section : run (default_options)
 (nd (NDocument) 1 1 5 8
 [nd (NHeading 1) 1 1 1 7
  [nd (NText (u "Title")) 1 3 1 7 []];
 nd (NHeading 2) 3 1 3 10
  [nd (NText (u "Section")) 3 4 3 10 []];
 nd (NParagraph) 5 1 5 8
  [nd (NText (u "Content.")) 5 1 5 8 []]])
 [Is (u "Title" ++ [c_nl] ++ u "=====" ++ [c_nl] ++ [c_nl] ++ u "Section" ++ [c_nl] ++ u "-------" ++ [c_nl] ++ [c_nl] ++ u "Content." ++ [c_nl])] = true.
Proof. vm_compute. reflexivity. Qed.
Example test_serialize_consecutive_h2_sections : run (default_options)
 (nd (NDocument) 1 1 5 8
 [nd (NHeading 2) 1 1 1 12
  [nd (NText (u "Section 1")) 1 4 1 12 []];
 nd (NHeading 2) 3 1 3 12
  [nd (NText (u "Section 2")) 3 4 3 12 []];
 nd (NParagraph) 5 1 5 8
  [nd (NText (u "Content.")) 5 1 5 8 []]])
 [Is (u "Section 1" ++ [c_nl] ++ u "---------" ++ [c_nl] ++ [c_nl] ++ u "Section 2" ++ [c_nl] ++ u "---------" ++ [c_nl] ++ [c_nl] ++ u "Content." ++ [c_nl])] = true.
Proof. vm_compute. reflexivity. Qed.
Example test_heading_with_inline_code : run (default_options)
 (nd (NDocument) 1 1 1 21
 [nd (NHeading 1) 1 1 1 21
  [nd (NText (u "Heading with ")) 1 3 1 15 []; nd (NCode (u "code")) 1 16 1 21 []]])
 [Is (u "Heading with `code`" ++ [c_nl] ++ u "===================" ++ [c_nl])] = true.
Proof. vm_compute. reflexivity. Qed.
Example test_heading_with_multiple_inline_codes : run (default_options)
 (nd (NDocument) 1 1 1 47
 [nd (NHeading 3) 1 1 1 47
  [nd (NText (u "Looking at the ")) 1 5 1 19 []; nd (NCode (u "to")) 1 20 1 23 []; nd (NText (u ", ")) 1 24 1 25 []; nd (NCode (u "cc")) 1 26 1 29 []; nd (NText (u ", and ")) 1 30 1 35 []; nd (NCode (u "bcc")) 1 36 1 40 []; nd (NText (u " fields")) 1 41 1 47 []]])
 [Is (u "### Looking at the `to`, `cc`, and `bcc` fields" ++ [c_nl])] = true.
Proof. vm_compute. reflexivity. Qed.
Example test_korean_in_link : run (default_options)
 (nd (NDocument) 1 1 1 32
 [nd (NParagraph) 1 1 1 32
  [nd (NLink (u "https://example.com") ([])) 1 1 1 32
   [nd (NText (u "한국어")) 1 2 1 10 []]]])
 [Has (u "[한국어]");
  Has (u "https://example.com")] = true.
Proof. vm_compute. reflexivity. Qed.
Example test_serialize_paragraph_wrap_at_80 : run (with_line_width (80) default_options)
 (nd (NDocument) 1 1 1 112
 [nd (NParagraph) 1 1 1 112
  [nd (NText (u "This is a very long paragraph that should be wrapped at approximately eighty characters to maintain readability.")) 1 1 1 112 []]])
 [Has ([c_nl]);
  Within 85] = true.
Proof. vm_compute. reflexivity. Qed.
Example test_serialize_paragraph_no_wrap_short : run (with_line_width (80) default_options)
 (nd (NDocument) 1 1 1 16
 [nd (NParagraph) 1 1 1 16
  [nd (NText (u "Short paragraph.")) 1 1 1 16 []]])
 [Is (u "Short paragraph." ++ [c_nl])] = true.
Proof. vm_compute. reflexivity. Qed.
Example test_serialize_paragraph_wrap_preserves_words : run (with_line_width (40) default_options)
 (nd (NDocument) 1 1 1 95
 [nd (NParagraph) 1 1 1 95
  [nd (NText (u "Word1 Word2 Word3 Word4 Word5 Word6 Word7 Word8 Word9 Word10 Word11 Word12 Word13 Word14 Word15")) 1 1 1 95 []]])
 [NoLineEnds (u "-")] = true.
Proof. vm_compute. reflexivity. Qed.
Example test_selective_rewrap_short_lines_preserved : run (default_options)
 (nd (NDocument) 1 1 3 11
 [nd (NParagraph) 1 1 3 11
  [nd (NText (u "Line one.")) 1 1 1 9 []; nd (NSoftBreak) 1 10 1 10 []; nd (NText (u "Line two.")) 2 1 2 9 []; nd (NSoftBreak) 2 10 2 10 []; nd (NText (u "Line three.")) 3 1 3 11 []]])
 [Is (u "Line one." ++ [c_nl] ++ u "Line two." ++ [c_nl] ++ u "Line three." ++ [c_nl])] = true.
Proof. vm_compute. reflexivity. Qed.
Example test_selective_rewrap_long_line_wrapped : run (with_line_width (80) default_options)
 (nd (NDocument) 1 1 1 124
 [nd (NParagraph) 1 1 1 124
  [nd (NText (u "This is a very long line that definitely exceeds the eighty character limit and should be wrapped to the next line properly.")) 1 1 1 124 []]])
 [AllOf [Not (AnyOf [LineCount 0; LineCount 1])];
  Within 80] = true.
Proof. vm_compute. reflexivity. Qed.
Example test_selective_rewrap_mixed_lines : run (with_line_width (80) default_options)
 (nd (NDocument) 1 1 3 100
 [nd (NParagraph) 1 1 3 100
  [nd (NText (u "Short line one.")) 1 1 1 15 []; nd (NSoftBreak) 1 16 1 16 []; nd (NText (u "Short line two.")) 2 1 2 15 []; nd (NSoftBreak) 2 16 2 16 []; nd (NText (u "This is a very long line that definitely exceeds the eighty character limit and needs to be wrapped.")) 3 1 3 100 []]])
 [Starts (u "Short line one." ++ [c_nl] ++ u "Short line two." ++ [c_nl])] = true.
Proof. vm_compute. reflexivity. Qed.
Example test_serialize_simple_table : run (default_options)
 (nd (NDocument) 1 1 3 9
 [nd (NTable [ANone; ANone]) 1 1 3 9
  [nd (NTableRow) 1 1 1 9
   [nd (NTableCell) 1 3 1 3
    [nd (NText (u "A")) 1 3 1 3 []]; nd (NTableCell) 1 7 1 7
    [nd (NText (u "B")) 1 7 1 7 []]];
  nd (NTableRow) 3 1 3 9
   [nd (NTableCell) 3 3 3 3
    [nd (NText (u "1")) 3 3 3 3 []]; nd (NTableCell) 3 7 3 7
    [nd (NText (u "2")) 3 7 3 7 []]]]])
 [Has (u "| A");
  Has (u "| B");
  Has (u "| 1");
  Has (u "| 2")] = true.
Proof. vm_compute. reflexivity. Qed.
Example test_serialize_table_with_alignment : run (default_options)
 (nd (NDocument) 1 1 3 13
 [nd (NTable [ALeft; ACenter; ARight]) 1 1 3 13
  [nd (NTableRow) 1 1 1 25
   [nd (NTableCell) 1 3 1 6
    [nd (NText (u "Left")) 1 3 1 6 []]; nd (NTableCell) 1 10 1 15
    [nd (NText (u "Center")) 1 10 1 15 []]; nd (NTableCell) 1 19 1 23
    [nd (NText (u "Right")) 1 19 1 23 []]];
  nd (NTableRow) 3 1 3 13
   [nd (NTableCell) 3 3 3 3
    [nd (NText (u "L")) 3 3 3 3 []]; nd (NTableCell) 3 7 3 7
    [nd (NText (u "C")) 3 7 3 7 []]; nd (NTableCell) 3 11 3 11
    [nd (NText (u "R")) 3 11 3 11 []]]]])
 [Has (u ":--");
  Has (u "--:")] = true.
Proof. vm_compute. reflexivity. Qed.
Example test_serialize_table_right_aligned_cell_data : run (default_options)
 (nd (NDocument) 1 1 4 11
 [nd (NTable [ANone; ARight]) 1 1 4 11
  [nd (NTableRow) 1 1 1 16
   [nd (NTableCell) 1 3 1 6
    [nd (NText (u "Name")) 1 3 1 6 []]; nd (NTableCell) 1 10 1 14
    [nd (NText (u "Value")) 1 10 1 14 []]];
  nd (NTableRow) 3 1 3 9
   [nd (NTableCell) 3 3 3 3
    [nd (NText (u "A")) 3 3 3 3 []]; nd (NTableCell) 3 7 3 7
    [nd (NText (u "1")) 3 7 3 7 []]];
  nd (NTableRow) 4 1 4 11
   [nd (NTableCell) 4 3 4 4
    [nd (NText (u "BB")) 4 3 4 4 []]; nd (NTableCell) 4 8 4 9
    [nd (NText (u "22")) 4 8 4 9 []]]]])
 [LineCount 4;
  LineHas 2 (u "|     1 |");
  LineHas 3 (u "|    22 |")] = true.
Proof. vm_compute. reflexivity. Qed.
Example test_serialize_table_center_aligned_cell_data : run (default_options)
 (nd (NDocument) 1 1 4 11
 [nd (NTable [ANone; ACenter]) 1 1 4 11
  [nd (NTableRow) 1 1 1 16
   [nd (NTableCell) 1 3 1 6
    [nd (NText (u "Name")) 1 3 1 6 []]; nd (NTableCell) 1 10 1 14
    [nd (NText (u "Value")) 1 10 1 14 []]];
  nd (NTableRow) 3 1 3 9
   [nd (NTableCell) 3 3 3 3
    [nd (NText (u "A")) 3 3 3 3 []]; nd (NTableCell) 3 7 3 7
    [nd (NText (u "1")) 3 7 3 7 []]];
  nd (NTableRow) 4 1 4 11
   [nd (NTableCell) 4 3 4 4
    [nd (NText (u "BB")) 4 3 4 4 []]; nd (NTableCell) 4 8 4 9
    [nd (NText (u "22")) 4 8 4 9 []]]]])
 [LineCount 4;
  LineHas 2 (u "|   1   |");
  LineHas 3 (u "|  22   |")] = true.
Proof. vm_compute. reflexivity. Qed.
Example test_serialize_table_with_links : run (default_options)
 (nd (NDocument) 1 1 3 40
 [nd (NTable [ANone; ANone]) 1 1 3 40
  [nd (NTableRow) 1 1 1 18
   [nd (NTableCell) 1 3 1 9
    [nd (NText (u "Package")) 1 3 1 9 []]; nd (NTableCell) 1 13 1 16
    [nd (NText (u "Link")) 1 13 1 16 []]];
  nd (NTableRow) 3 1 3 40
   [nd (NTableCell) 3 3 3 13
    [nd (NLink (u "/foo") ([])) 3 3 3 13
     [nd (NText (u "foo")) 3 4 3 6 []]]; nd (NTableCell) 3 17 3 38
    [nd (NLink (u "https://bar.com") ([])) 3 17 3 38
     [nd (NText (u "bar")) 3 18 3 20 []]]]]])
 [Has (u "[foo](/foo)");
  Has (u "[bar]")] = true.
Proof. vm_compute. reflexivity. Qed.
Example test_serialize_table_with_reference_links : run_source (u "| Package | JSR |" ++ [c_nl] ++ u "|---------|-----|" ++ [c_nl] ++ u "| [*@pkg/core*](/packages/core/) | [JSR][jsr:@pkg/core] |" ++ [c_nl] ++ [c_nl] ++ u "[jsr:@pkg/core]: https://jsr.io/@pkg/core") (default_options)
 (nd (NDocument) 1 1 5 41
 [nd (NTable [ANone; ANone]) 1 1 3 57
  [nd (NTableRow) 1 1 1 17
   [nd (NTableCell) 1 3 1 9
    [nd (NText (u "Package")) 1 3 1 9 []]; nd (NTableCell) 1 13 1 15
    [nd (NText (u "JSR")) 1 13 1 15 []]];
  nd (NTableRow) 3 1 3 57
   [nd (NTableCell) 3 3 3 32
    [nd (NLink (u "/packages/core/") ([])) 3 3 3 32
     [nd (NEmph) 3 4 3 14
      [nd (NText (u "@pkg/core")) 3 5 3 13 []]]]; nd (NTableCell) 3 36 3 55
    [nd (NLink (u "https://jsr.io/@pkg/core") ([])) 3 36 3 55
     [nd (NText (u "JSR")) 3 37 3 39 []]]]]])
 [Has (u "[*@pkg/core*](/packages/core/)");
  Has (u "[JSR][jsr:@pkg/core]")] = true.
Proof. vm_compute. reflexivity. Qed.
Example test_serialize_table_with_pipe_in_code_span : run (default_options)
 (nd (NDocument) 1 1 3 30
 [nd (NTable [ANone; ANone]) 1 1 3 30
  [nd (NTableRow) 1 1 1 17
   [nd (NTableCell) 1 3 1 8
    [nd (NText (u "Option")) 1 3 1 8 []]; nd (NTableCell) 1 12 1 15
    [nd (NText (u "Type")) 1 12 1 15 []]];
  nd (NTableRow) 3 1 3 30
   [nd (NTableCell) 3 3 3 7
    [nd (NCode (u "foo")) 3 3 3 7 []]; nd (NTableCell) 3 11 3 27
    [nd (NCode (u "string | number")) 3 11 3 27 []]]]])
 [Has (u "`string \| number`");
  Has (u "`foo`")] = true.
Proof. vm_compute. reflexivity. Qed.
Example test_serialize_table_with_multiple_pipes_in_code_span : run (default_options)
 (nd (NDocument) 1 1 3 31
 [nd (NTable [ANone; ANone]) 1 1 3 31
  [nd (NTableRow) 1 1 1 16
   [nd (NTableCell) 1 3 1 7
    [nd (NText (u "Field")) 1 3 1 7 []]; nd (NTableCell) 1 11 1 14
    [nd (NText (u "Type")) 1 11 1 14 []]];
  nd (NTableRow) 3 1 3 31
   [nd (NTableCell) 3 3 3 7
    [nd (NCode (u "val")) 3 3 3 7 []]; nd (NTableCell) 3 11 3 27
    [nd (NCode (u """a"" | ""b"" | ""c""")) 3 11 3 27 []]]]])
 [Has (u "`""a"" \| ""b"" \| ""c""`")] = true.
Proof. vm_compute. reflexivity. Qed.
Example test_serialize_definition_list_single : run (default_options)
 (nd (NDocument) 1 1 2 14
 [nd (NDescriptionList) 1 1 2 14
  [nd (NDescriptionItem) 1 1 2 14
   [nd (NDescriptionTerm) 1 1 1 4
    [nd (NParagraph) 1 1 1 4
     [nd (NText (u "Term")) 1 1 1 4 []]];
   nd (NDescriptionDetails) 2 1 2 14
    [nd (NParagraph) 2 5 2 14
     [nd (NText (u "Definition")) 2 5 2 14 []]]]]])
 [Has (u "Term" ++ [c_nl]);
  Has (u ":   Definition")] = true.
Proof. vm_compute. reflexivity. Qed.
Example test_serialize_definition_list_multiple_definitions : run (default_options)
 (nd (NDocument) 1 1 3 21
 [nd (NDescriptionList) 1 1 3 21
  [nd (NDescriptionItem) 1 1 2 20
   [nd (NDescriptionTerm) 1 1 1 4
    [nd (NParagraph) 1 1 1 4
     [nd (NText (u "Term")) 1 1 1 4 []]];
   nd (NDescriptionDetails) 2 1 2 20
    [nd (NParagraph) 2 5 2 20
     [nd (NText (u "First definition")) 2 5 2 20 []]]];
  nd (NDescriptionItem) 3 1 3 21
   [nd (NDescriptionDetails) 3 1 3 21
    [nd (NParagraph) 3 5 3 21
     [nd (NText (u "Second definition")) 3 5 3 21 []]]]]])
 [Has (u "Term" ++ [c_nl]);
  Has (u ":   First definition");
  Has (u ":   Second definition")] = true.
Proof. vm_compute. reflexivity. Qed.
Example test_serialize_github_note_alert : run (default_options)
 (nd (NDocument) 1 1 2 17
 [nd (NAlert Note) 1 1 2 17
  [nd (NParagraph) 2 3 2 17
   [nd (NText (u "This is a note.")) 2 3 2 17 []]]])
 [Has (u "> [!NOTE]");
  Has (u "> This is a note.")] = true.
Proof. vm_compute. reflexivity. Qed.
Example test_serialize_github_warning_alert : run (default_options)
 (nd (NDocument) 1 1 2 20
 [nd (NAlert Warn) 1 1 2 20
  [nd (NParagraph) 2 3 2 20
   [nd (NText (u "This is a warning.")) 2 3 2 20 []]]])
 [Has (u "> [!WARNING]");
  Has (u "> This is a warning.")] = true.
Proof. vm_compute. reflexivity. Qed.
Example test_serialize_github_caution_alert : run (default_options)
 (nd (NDocument) 1 1 2 13
 [nd (NAlert Caution) 1 1 2 13
  [nd (NParagraph) 2 3 2 13
   [nd (NText (u "Be careful!")) 2 3 2 13 []]]])
 [Has (u "> [!CAUTION]");
  Has (u "> Be careful!")] = true.
Proof. vm_compute. reflexivity. Qed.
Example test_serialize_footnote_reference : run (default_options)
 (nd (NDocument) 1 1 3 24
 [nd (NParagraph) 1 1 1 24
  [nd (NText (u "This has a footnote")) 1 1 1 19 []; nd (NFootnoteReference (u "1")) 1 20 1 23 []; nd (NText (u ".")) 1 24 1 24 []];
 nd (NFootnoteDefinition (u "1")) 3 1 3 24
  [nd (NParagraph) 3 7 3 24
   [nd (NText (u "The footnote text.")) 3 7 3 24 []]]])
 [Has (u "[^1]")] = true.
Proof. vm_compute. reflexivity. Qed.
Example test_serialize_footnote_definition : run (default_options)
 (nd (NDocument) 1 1 3 26
 [nd (NParagraph) 1 1 1 12
  [nd (NText (u "Text")) 1 1 1 4 []; nd (NFootnoteReference (u "note")) 1 5 1 11 []; nd (NText (u ".")) 1 12 1 12 []];
 nd (NFootnoteDefinition (u "note")) 3 1 3 26
  [nd (NParagraph) 3 10 3 26
   [nd (NText (u "A named footnote.")) 3 10 3 26 []]]])
 [Has (u "[^note]")] = true.
Proof. vm_compute. reflexivity. Qed.
Example test_serialize_double_space_after_period : run (default_options)
 (nd (NDocument) 1 1 1 33
 [nd (NParagraph) 1 1 1 33
  [nd (NText (u "First sentence.  Second sentence.")) 1 1 1 33 []]])
 [Is (u "First sentence.  Second sentence." ++ [c_nl])] = true.
Proof. vm_compute. reflexivity. Qed.
Example test_definition_list_with_nested_list_continuation : run (default_options)
 (nd (NDocument) 1 1 5 22
 [nd (NDescriptionList) 1 1 5 22
  [nd (NDescriptionItem) 1 1 5 22
   [nd (NDescriptionTerm) 1 1 1 4
    [nd (NParagraph) 1 1 1 4
     [nd (NText (u "Term")) 1 1 1 4 []]];
   nd (NDescriptionDetails) 2 1 5 22
    [nd (NParagraph) 2 5 2 15
     [nd (NText (u "Definition:")) 2 5 2 15 []];
    nd (NList Bullet true) 4 6 5 22
     [nd (NItem) 4 6 5 22
      [nd (NParagraph) 4 9 5 22
       [nd (NText (u "Item with long text")) 4 9 4 27 []; nd (NSoftBreak) 4 28 4 28 []; nd (NText (u "that continues")) 5 9 5 22 []]]]]]]])
 [Has (u "     -  Item with long text");
  Has (u "        that continues")] = true.
Proof. vm_compute. reflexivity. Qed.
Example test_alert_preserves_blank_line_after_header : run_source (u "> [!TIP]" ++ [c_nl] ++ u ">" ++ [c_nl] ++ u "> This is a tip.") (default_options)
 (nd (NDocument) 1 1 3 16
 [nd (NAlert Tip) 1 1 3 16
  [nd (NParagraph) 3 3 3 16
   [nd (NText (u "This is a tip.")) 3 3 3 16 []]]])
 [Is (u "> [!TIP]" ++ [c_nl] ++ u ">" ++ [c_nl] ++ u "> This is a tip." ++ [c_nl])] = true.
Proof. vm_compute. reflexivity. Qed.
Example test_alert_without_blank_line_after_header : run_source (u "> [!NOTE]" ++ [c_nl] ++ u "> This is a note.") (default_options)
 (nd (NDocument) 1 1 2 17
 [nd (NAlert Note) 1 1 2 17
  [nd (NParagraph) 2 3 2 17
   [nd (NText (u "This is a note.")) 2 3 2 17 []]]])
 [Is (u "> [!NOTE]" ++ [c_nl] ++ u "> This is a note." ++ [c_nl])] = true.
Proof. vm_compute. reflexivity. Qed.
Example test_serialize_list_in_alert : run (default_options)
 (nd (NDocument) 1 1 3 17
 [nd (NAlert Note) 1 1 3 17
  [nd (NList Bullet true) 2 4 3 17
   [nd (NItem) 2 4 2 16
    [nd (NParagraph) 2 7 2 16
     [nd (NText (u "First item")) 2 7 2 16 []]];
   nd (NItem) 3 4 3 17
    [nd (NParagraph) 3 7 3 17
     [nd (NText (u "Second item")) 3 7 3 17 []]]]]])
 [Has (u "> [!NOTE]");
  Has (u ">  -  First item");
  Has (u ">  -  Second item")] = true.
Proof. vm_compute. reflexivity. Qed.
Example test_serialize_long_list_item_in_alert : run (with_line_width (60) default_options)
 (nd (NDocument) 1 1 2 85
 [nd (NAlert Note) 1 1 2 85
  [nd (NList Bullet true) 2 4 2 85
   [nd (NItem) 2 4 2 85
    [nd (NParagraph) 2 7 2 85
     [nd (NText (u "This is a very long list item that should wrap properly inside the alert block.")) 2 7 2 85 []]]]]])
 [Has (u ">  -  This is a very long");
  Has ([c_nl] ++ u ">     ")] = true.
Proof. vm_compute. reflexivity. Qed.
Example test_blockquote_inside_list_item : run (default_options)
 (nd (NDocument) 1 1 6 14
 [nd (NList Ordered false) 1 1 6 14
  [nd (NItem) 1 1 4 25
   [nd (NParagraph) 1 5 1 25
    [nd (NText (u "Item with blockquote:")) 1 5 1 25 []];
   nd (NBlockQuote) 3 5 4 25
    [nd (NParagraph) 3 7 4 25
     [nd (NText (u "This is quoted text")) 3 7 3 25 []; nd (NSoftBreak) 3 26 3 26 []; nd (NText (u "inside a list item.")) 4 7 4 25 []]]];
  nd (NItem) 6 1 6 14
   [nd (NParagraph) 6 5 6 14
    [nd (NText (u "Next item.")) 6 5 6 14 []]]]])
 [Has (u "1.  Item with blockquote:");
  Has (u "    > This is quoted text");
  Has (u "    > inside a list item.");
  Has (u "2.  Next item.")] = true.
Proof. vm_compute. reflexivity. Qed.
Example test_alert_inside_list_item : run (default_options)
 (nd (NDocument) 1 1 6 14
 [nd (NList Ordered false) 1 1 6 14
  [nd (NItem) 1 1 4 24
   [nd (NParagraph) 1 5 1 20
    [nd (NText (u "Item with alert:")) 1 5 1 20 []];
   nd (NAlert Important) 3 5 4 24
    [nd (NParagraph) 4 7 4 24
     [nd (NText (u "Important message.")) 4 7 4 24 []]]];
  nd (NItem) 6 1 6 14
   [nd (NParagraph) 6 5 6 14
    [nd (NText (u "Next item.")) 6 5 6 14 []]]]])
 [Has (u "1.  Item with alert:");
  Has (u "    > [!IMPORTANT]");
  Has (u "    > Important message.");
  Has (u "2.  Next item.")] = true.
Proof. vm_compute. reflexivity. Qed.
Example test_alert_inside_unordered_list_item : run (default_options)
 (nd (NDocument) 1 1 4 28
 [nd (NList Bullet false) 1 2 4 28
  [nd (NItem) 1 2 4 28
   [nd (NParagraph) 1 5 1 20
    [nd (NText (u "Item with alert:")) 1 5 1 20 []];
   nd (NAlert Note) 3 6 4 28
    [nd (NParagraph) 4 8 4 28
     [nd (NText (u "A note inside a list.")) 4 8 4 28 []]]]]])
 [Has (u " -  Item with alert:");
  Has (u "    > [!NOTE]");
  Has (u "    > A note inside a list.")] = true.
Proof. vm_compute. reflexivity. Qed.
Example test_serialize_external_link_as_reference : run (default_options)
 (nd (NDocument) 1 1 1 55
 [nd (NParagraph) 1 1 1 55
  [nd (NText (u "Visit ")) 1 1 1 6 []; nd (NLink (u "https://www.rust-lang.org/") ([])) 1 7 1 40
   [nd (NText (u "Rust")) 1 8 1 11 []]; nd (NText (u " for more info.")) 1 41 1 55 []]])
 [Has (u "[Rust]");
  Not (Has (u "](https://"));
  Has (u "[Rust]: https://www.rust-lang.org/")] = true.
Proof. vm_compute. reflexivity. Qed.
Example test_serialize_relative_link_stays_inline : run (default_options)
 (nd (NDocument) 1 1 1 42
 [nd (NParagraph) 1 1 1 42
  [nd (NText (u "See the ")) 1 1 1 8 []; nd (NLink (u "./README.md") ([])) 1 9 1 29
   [nd (NText (u "README")) 1 10 1 15 []]; nd (NText (u " for details.")) 1 30 1 42 []]])
 [Has (u "[README](./README.md)")] = true.
Proof. vm_compute. reflexivity. Qed.
Example test_serialize_reference_links_at_section_end : run (default_options)
 (nd (NDocument) 1 1 11 40
 [nd (NHeading 1) 1 1 1 7
  [nd (NText (u "Title")) 1 3 1 7 []];
 nd (NParagraph) 3 1 3 41
  [nd (NText (u "See ")) 3 1 3 4 []; nd (NLink (u "https://example.com/") ([])) 3 5 3 35
   [nd (NText (u "Example")) 3 6 3 12 []]; nd (NText (u " here.")) 3 36 3 41 []];
 nd (NHeading 2) 5 1 5 14
  [nd (NText (u "Section One")) 5 4 5 14 []];
 nd (NParagraph) 7 1 7 87
  [nd (NText (u "Visit ")) 7 1 7 6 []; nd (NLink (u "https://www.rust-lang.org/") ([])) 7 7 7 40
   [nd (NText (u "Rust")) 7 8 7 11 []]; nd (NText (u " and ")) 7 41 7 45 []; nd (NLink (u "https://doc.rust-lang.org/cargo/") ([])) 7 46 7 86
   [nd (NText (u "Cargo")) 7 47 7 51 []]; nd (NText (u ".")) 7 87 7 87 []];
 nd (NHeading 2) 9 1 9 14
  [nd (NText (u "Section Two")) 9 4 9 14 []];
 nd (NParagraph) 11 1 11 40
  [nd (NText (u "Check ")) 11 1 11 6 []; nd (NLink (u "https://python.org/") ([])) 11 7 11 35
   [nd (NText (u "Python")) 11 8 11 13 []]; nd (NText (u " too.")) 11 36 11 40 []]])
 [Has (u "[Rust]: https://www.rust-lang.org/");
  Has (u "[Cargo]: https://doc.rust-lang.org/cargo/");
  Has (u "[Python]: https://python.org/");
  Before (u "[Rust]: ") (u "Section Two")] = true.
Proof. vm_compute. reflexivity. Qed.
Example test_serialize_shortcut_reference_when_text_matches_label : run (default_options)
 (nd (NDocument) 1 1 1 49
 [nd (NParagraph) 1 1 1 49
  [nd (NText (u "Use ")) 1 1 1 4 []; nd (NLink (u "https://docs.rs/comrak") ([])) 1 5 1 36
   [nd (NText (u "comrak")) 1 6 1 11 []]; nd (NText (u " for parsing.")) 1 37 1 49 []]])
 [Has (u "[comrak]");
  Has (u "[comrak]: https://docs.rs/comrak")] = true.
Proof. vm_compute. reflexivity. Qed.
Example test_serialize_escaped_asterisk_in_emphasis : run (default_options)
 (nd (NDocument) 1 1 1 7
 [nd (NParagraph) 1 1 1 7
  [nd (NEmph) 1 1 1 7
   [nd (NText (u "*.ts")) 1 2 1 6 []]]])
 [Is (u "_\*.ts_" ++ [c_nl])] = true.
Proof. vm_compute. reflexivity. Qed.
Example test_serialize_escaped_underscore : run (default_options)
 (nd (NDocument) 1 1 1 12
 [nd (NParagraph) 1 1 1 12
  [nd (NText (u "__init__")) 1 1 1 12 []]])
 [Is (u "\_\_init\_\_" ++ [c_nl])] = true.
Proof. vm_compute. reflexivity. Qed.
Example test_serialize_escaped_underscore_in_emphasis : run_source (u "*node\_modules*") (default_options)
 (nd (NDocument) 1 1 1 15
 [nd (NParagraph) 1 1 1 15
  [nd (NEmph) 1 1 1 15
   [nd (NText (u "node_modules")) 1 2 1 14 []]]])
 [Is (u "*node\_modules*" ++ [c_nl])] = true.
Proof. vm_compute. reflexivity. Qed.
Example test_ordered_list_with_code_block : run_source (u "1.  First item:" ++ [c_nl] ++ [c_nl] ++ u "    ~~~~ bash" ++ [c_nl] ++ u "    echo ""hello""" ++ [c_nl] ++ u "    ~~~~" ++ [c_nl] ++ [c_nl] ++ u "2.  Second item." ++ [c_nl]) (default_options)
 (nd (NDocument) 1 1 7 16
 [nd (NList Ordered false) 1 1 7 16
  [nd (NItem) 1 1 5 8
   [nd (NParagraph) 1 5 1 15
    [nd (NText (u "First item:")) 1 5 1 15 []];
   nd (NCodeBlock (u "bash") (u "echo ""hello""" ++ [c_nl])) 3 5 5 8 []];
  nd (NItem) 7 1 7 16
   [nd (NParagraph) 7 5 7 16
    [nd (NText (u "Second item.")) 7 5 7 16 []]]]])
 [Is (u "1.  First item:" ++ [c_nl] ++ [c_nl] ++ u "    ~~~~ bash" ++ [c_nl] ++ u "    echo ""hello""" ++ [c_nl] ++ u "    ~~~~" ++ [c_nl] ++ [c_nl] ++ u "2.  Second item." ++ [c_nl])] = true.
Proof. vm_compute. reflexivity. Qed.
Example test_unordered_list_with_code_block : run_source (u " -  First item:" ++ [c_nl] ++ [c_nl] ++ u "    ~~~~ bash" ++ [c_nl] ++ u "    echo ""hello""" ++ [c_nl] ++ u "    ~~~~" ++ [c_nl] ++ [c_nl] ++ u " -  Second item." ++ [c_nl]) (default_options)
 (nd (NDocument) 1 1 7 16
 [nd (NList Bullet false) 1 2 7 16
  [nd (NItem) 1 2 5 8
   [nd (NParagraph) 1 5 1 15
    [nd (NText (u "First item:")) 1 5 1 15 []];
   nd (NCodeBlock (u "bash") (u "echo ""hello""" ++ [c_nl])) 3 5 5 8 []];
  nd (NItem) 7 2 7 16
   [nd (NParagraph) 7 5 7 16
    [nd (NText (u "Second item.")) 7 5 7 16 []]]]])
 [Is (u " -  First item:" ++ [c_nl] ++ [c_nl] ++ u "    ~~~~ bash" ++ [c_nl] ++ u "    echo ""hello""" ++ [c_nl] ++ u "    ~~~~" ++ [c_nl] ++ [c_nl] ++ u " -  Second item." ++ [c_nl])] = true.
Proof. vm_compute. reflexivity. Qed.
