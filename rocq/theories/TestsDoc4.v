(** The tests of src/serializer/tests.rs, run on the model: part 4 of 4.  Each
    input is given as the tree comrak builds for it, written out by a separate
    reading of Markdown (not verified), so these check the transcription of the
    serializer, not comrak. *)
From Coq Require Import Bool Arith NArith String List.
From Verif Require Import Base OptsModel CodeModel TableModel AstModel StateModel SerModel NounsData TestsBase.
Import ListNotations.

Example test_setext_h2_with_fullwidth_characters : run (default_options)
 (nd (NDocument) 1 1 2 5
 [nd (NHeading 2) 1 1 2 5
  [nd (NText (u "한글 제목")) 1 1 1 13 []]])
 [Is (u "한글 제목" ++ [c_nl] ++ u "---------" ++ [c_nl])] = true.
Proof. vm_compute. reflexivity. Qed.
Example test_punctuation_curly_double_quotes_in_paragraph : run (default_options)
 (nd (NDocument) 1 1 1 23
 [nd (NParagraph) 1 1 1 23
  [nd (NText (u "He said ""hello"" to her.")) 1 1 1 23 []]])
 [Is (u "He said “hello” to her." ++ [c_nl])] = true.
Proof. vm_compute. reflexivity. Qed.
Example test_punctuation_curly_double_quotes_disabled : run (with_curly_double_quotes (false) default_options)
 (nd (NDocument) 1 1 1 23
 [nd (NParagraph) 1 1 1 23
  [nd (NText (u "He said ""hello"" to her.")) 1 1 1 23 []]])
 [Is (u "He said ""hello"" to her." ++ [c_nl])] = true.
Proof. vm_compute. reflexivity. Qed.
Example test_punctuation_curly_single_quotes_in_paragraph : run (default_options)
 (nd (NDocument) 1 1 1 24
 [nd (NParagraph) 1 1 1 24
  [nd (NText (u "She said 'hello' to him.")) 1 1 1 24 []]])
 [Is (u "She said ‘hello’ to him." ++ [c_nl])] = true.
Proof. vm_compute. reflexivity. Qed.
Example test_punctuation_curly_single_quotes_disabled : run (with_curly_single_quotes (false) default_options)
 (nd (NDocument) 1 1 1 24
 [nd (NParagraph) 1 1 1 24
  [nd (NText (u "She said 'hello' to him.")) 1 1 1 24 []]])
 [Is (u "She said 'hello' to him." ++ [c_nl])] = true.
Proof. vm_compute. reflexivity. Qed.
Example test_punctuation_ellipsis_in_paragraph : run (default_options)
 (nd (NDocument) 1 1 1 14
 [nd (NParagraph) 1 1 1 14
  [nd (NText (u "Wait for it...")) 1 1 1 14 []]])
 [Is (u "Wait for it…" ++ [c_nl])] = true.
Proof. vm_compute. reflexivity. Qed.
Example test_punctuation_ellipsis_disabled : run (with_ellipsis (false) default_options)
 (nd (NDocument) 1 1 1 14
 [nd (NParagraph) 1 1 1 14
  [nd (NText (u "Wait for it...")) 1 1 1 14 []]])
 [Is (u "Wait for it..." ++ [c_nl])] = true.
Proof. vm_compute. reflexivity. Qed.
Example test_punctuation_em_dash_default : run (default_options)
 (nd (NDocument) 1 1 1 12
 [nd (NParagraph) 1 1 1 12
  [nd (NText (u "Hello--world")) 1 1 1 12 []]])
 [Is (u "Hello—world" ++ [c_nl])] = true.
Proof. vm_compute. reflexivity. Qed.
Example test_punctuation_em_dash_disabled : run (with_em_dash (DDisabled) default_options)
 (nd (NDocument) 1 1 1 12
 [nd (NParagraph) 1 1 1 12
  [nd (NText (u "Hello--world")) 1 1 1 12 []]])
 [Is (u "Hello--world" ++ [c_nl])] = true.
Proof. vm_compute. reflexivity. Qed.
Example test_punctuation_em_dash_triple_hyphen : run (with_em_dash (DPattern (u "---")) default_options)
 (nd (NDocument) 1 1 1 13
 [nd (NParagraph) 1 1 1 13
  [nd (NText (u "Hello---world")) 1 1 1 13 []]])
 [Is (u "Hello—world" ++ [c_nl])] = true.
Proof. vm_compute. reflexivity. Qed.
Example test_punctuation_en_dash_disabled_by_default : run (default_options)
 (nd (NDocument) 1 1 1 12
 [nd (NParagraph) 1 1 1 12
  [nd (NText (u "Pages 10--20")) 1 1 1 12 []]])
 [Is (u "Pages 10—20" ++ [c_nl])] = true.
Proof. vm_compute. reflexivity. Qed.
Example test_punctuation_en_dash_enabled : run (with_en_dash (DPattern (u "--")) (with_em_dash (DPattern (u "---")) default_options))
 (nd (NDocument) 1 1 1 30
 [nd (NParagraph) 1 1 1 30
  [nd (NText (u "Pages 10--20 and a long---dash")) 1 1 1 30 []]])
 [Is (u "Pages 10–20 and a long—dash" ++ [c_nl])] = true.
Proof. vm_compute. reflexivity. Qed.
Example test_punctuation_apostrophes_disabled_by_default : run (default_options)
 (nd (NDocument) 1 1 1 11
 [nd (NParagraph) 1 1 1 11
  [nd (NText (u "It's a test")) 1 1 1 11 []]])
 [Is (u "It's a test" ++ [c_nl])] = true.
Proof. vm_compute. reflexivity. Qed.
Example test_punctuation_apostrophes_enabled : run (with_curly_apostrophes (true) default_options)
 (nd (NDocument) 1 1 1 11
 [nd (NParagraph) 1 1 1 11
  [nd (NText (u "It's a test")) 1 1 1 11 []]])
 [Is (u "It’s a test" ++ [c_nl])] = true.
Proof. vm_compute. reflexivity. Qed.
Example test_punctuation_no_transform_in_inline_code : run (default_options)
 (nd (NDocument) 1 1 1 26
 [nd (NParagraph) 1 1 1 26
  [nd (NText (u "Use ")) 1 1 1 4 []; nd (NCode (u """hello""")) 1 5 1 13 []; nd (NText (u " for strings.")) 1 14 1 26 []]])
 [Has (u "`""hello""`")] = true.
Proof. vm_compute. reflexivity. Qed.
Example test_punctuation_no_transform_in_fenced_code_block : run (default_options)
 (nd (NDocument) 1 1 3 4
 [nd (NCodeBlock (u "python") (u "print(""Hello..."")" ++ [c_nl])) 1 1 3 4 []])
 [Has (u "print(""Hello..."")")] = true.
Proof. vm_compute. reflexivity. Qed.
Example test_punctuation_in_heading : run (default_options)
 (nd (NDocument) 1 1 1 15
 [nd (NHeading 1) 1 1 1 15
  [nd (NText (u """Hello"" World")) 1 3 1 15 []]])
 [Is (u "“Hello” World" ++ [c_nl] ++ u "=============" ++ [c_nl])] = true.
Proof. vm_compute. reflexivity. Qed.
Example test_punctuation_in_list_item : run (default_options)
 (nd (NDocument) 1 1 1 17
 [nd (NList Bullet true) 1 2 1 17
  [nd (NItem) 1 2 1 17
   [nd (NParagraph) 1 5 1 17
    [nd (NText (u "He said ""yes""")) 1 5 1 17 []]]]])
 [Is (u " -  He said “yes”" ++ [c_nl])] = true.
Proof. vm_compute. reflexivity. Qed.
Example test_punctuation_in_blockquote : run (default_options)
 (nd (NDocument) 1 1 1 22
 [nd (NBlockQuote) 1 1 1 22
  [nd (NParagraph) 1 3 1 22
   [nd (NText (u """Quote inside quote""")) 1 3 1 22 []]]])
 [Is (u "> “Quote inside quote”" ++ [c_nl])] = true.
Proof. vm_compute. reflexivity. Qed.
Example test_punctuation_preserve_existing_curly_quotes : run (default_options)
 (nd (NDocument) 1 1 1 19
 [nd (NParagraph) 1 1 1 19
  [nd (NText (u "Already “curly”")) 1 1 1 19 []]])
 [Has (u "“curly”")] = true.
Proof. vm_compute. reflexivity. Qed.
Example test_punctuation_all_transforms_combined : run (with_curly_apostrophes (true) default_options)
 (nd (NDocument) 1 1 1 36
 [nd (NParagraph) 1 1 1 36
  [nd (NText (u "He said ""It's... amazing--isn't it?""")) 1 1 1 36 []]])
 [AllOf [Has (u "“"); Has (u "”")];
  Has (u "…");
  Has (u "—");
  Has (u "’")] = true.
Proof. vm_compute. reflexivity. Qed.
Example test_punctuation_all_disabled : run (with_en_dash (DDisabled) (with_em_dash (DDisabled) (with_ellipsis (false) (with_curly_single_quotes (false) (with_curly_double_quotes (false) (with_curly_apostrophes (false) default_options))))))
 (nd (NDocument) 1 1 1 36
 [nd (NParagraph) 1 1 1 36
  [nd (NText (u "He said ""It's... amazing--isn't it?""")) 1 1 1 36 []]])
 [Is (u "He said ""It's... amazing--isn't it?""" ++ [c_nl])] = true.
Proof. vm_compute. reflexivity. Qed.
Example test_punctuation_bracket_possessive_stays_straight : run (default_options)
 (nd (NDocument) 1 1 3 29
 [nd (NParagraph) 1 1 1 37
  [nd (NText (u "This package provides ")) 1 1 1 22 []; nd (NLink (u "https://fedify.dev/") ([])) 1 23 1 30
   [nd (NText (u "Fedify")) 1 24 1 29 []]; nd (NText (u "'s API.")) 1 31 1 37 []]])
 [Is (u "This package provides [Fedify]'s API." ++ [c_nl] ++ [c_nl] ++ u "[Fedify]: https://fedify.dev/" ++ [c_nl])] = true.
Proof. vm_compute. reflexivity. Qed.
Example test_punctuation_bracket_possessive_curly_when_enabled : run (with_curly_apostrophes (true) default_options)
 (nd (NDocument) 1 1 3 29
 [nd (NParagraph) 1 1 1 37
  [nd (NText (u "This package provides ")) 1 1 1 22 []; nd (NLink (u "https://fedify.dev/") ([])) 1 23 1 30
   [nd (NText (u "Fedify")) 1 24 1 29 []]; nd (NText (u "'s API.")) 1 31 1 37 []]])
 [Is (u "This package provides [Fedify]’s API." ++ [c_nl] ++ [c_nl] ++ u "[Fedify]: https://fedify.dev/" ++ [c_nl])] = true.
Proof. vm_compute. reflexivity. Qed.
Example test_punctuation_decade_abbreviation : run (default_options)
 (nd (NDocument) 1 1 1 20
 [nd (NParagraph) 1 1 1 20
  [nd (NText (u "The '80s were great.")) 1 1 1 20 []]])
 [Is (u "The ’80s were great." ++ [c_nl])] = true.
Proof. vm_compute. reflexivity. Qed.
Example test_punctuation_single_hyphen_em_dash_with_spaces : run (with_em_dash (DPattern (u "-")) default_options)
 (nd (NDocument) 1 1 1 11
 [nd (NParagraph) 1 1 1 11
  [nd (NText (u "word - word")) 1 1 1 11 []]])
 [Is (u "word — word" ++ [c_nl])] = true.
Proof. vm_compute. reflexivity. Qed.
Example test_punctuation_single_hyphen_em_dash_without_spaces : run (with_em_dash (DPattern (u "-")) default_options)
 (nd (NDocument) 1 1 1 9
 [nd (NParagraph) 1 1 1 9
  [nd (NText (u "word-word")) 1 1 1 9 []]])
 [Is (u "word-word" ++ [c_nl])] = true.
Proof. vm_compute. reflexivity. Qed.
Example test_nested_list_followed_by_paragraph_no_extra_blank_line : run (default_options)
 (nd (NDocument) 1 1 8 17
 [nd (NList Bullet false) 1 2 8 17
  [nd (NItem) 1 2 6 9
   [nd (NParagraph) 1 5 1 12
    [nd (NText (u "Foo bar.")) 1 5 1 12 []];
   nd (NList Bullet true) 3 6 4 12
    [nd (NItem) 3 6 3 12
     [nd (NParagraph) 3 9 3 12
      [nd (NText (u "Baz.")) 3 9 3 12 []]];
    nd (NItem) 4 6 4 12
     [nd (NParagraph) 4 9 4 12
      [nd (NText (u "Qux.")) 4 9 4 12 []]]];
   nd (NParagraph) 6 5 6 9
    [nd (NText (u "Quux.")) 6 5 6 9 []]];
  nd (NItem) 8 2 8 17
   [nd (NParagraph) 8 5 8 17
    [nd (NText (u "Another item.")) 8 5 8 17 []]]]])
 [Not (Has ([c_nl] ++ [c_nl] ++ [c_nl]));
  Is (u " -  Foo bar." ++ [c_nl] ++ [c_nl] ++ u "     -  Baz." ++ [c_nl] ++ u "     -  Qux." ++ [c_nl] ++ [c_nl] ++ u "    Quux." ++ [c_nl] ++ [c_nl] ++ u " -  Another item." ++ [c_nl])] = true.
Proof. vm_compute. reflexivity. Qed.
Example test_heading_sentence_case_basic : run (with_heading_sentence_case (true) default_options)
 (nd (NDocument) 1 1 1 13
 [nd (NHeading 1) 1 1 1 13
  [nd (NText (u "Hello World")) 1 3 1 13 []]])
 [Is (u "Hello world" ++ [c_nl] ++ u "===========" ++ [c_nl])] = true.
Proof. vm_compute. reflexivity. Qed.
Example test_heading_sentence_case_with_acronyms : run (with_heading_sentence_case (true) default_options)
 (nd (NDocument) 1 1 1 24
 [nd (NHeading 1) 1 1 1 24
  [nd (NText (u "Working With HTTP APIs")) 1 3 1 24 []]])
 [Is (u "Working with HTTP APIs" ++ [c_nl] ++ u "======================" ++ [c_nl])] = true.
Proof. vm_compute. reflexivity. Qed.
Example test_heading_sentence_case_with_proper_nouns : run (with_heading_sentence_case (true) default_options)
 (nd (NDocument) 1 1 1 28
 [nd (NHeading 1) 1 1 1 28
  [nd (NText (u "Introduction To JavaScript")) 1 3 1 28 []]])
 [Is (u "Introduction to JavaScript" ++ [c_nl] ++ u "==========================" ++ [c_nl])] = true.
Proof. vm_compute. reflexivity. Qed.
Example test_heading_sentence_case_with_user_proper_nouns : run (with_heading_sentence_case (true) (with_heading_proper_nouns ([u "MyAPI"]) default_options))
 (nd (NDocument) 1 1 1 28
 [nd (NHeading 1) 1 1 1 28
  [nd (NText (u "Getting Started With MyAPI")) 1 3 1 28 []]])
 [Is (u "Getting started with MyAPI" ++ [c_nl] ++ u "==========================" ++ [c_nl])] = true.
Proof. vm_compute. reflexivity. Qed.
Example test_heading_sentence_case_with_code_spans : run (with_heading_sentence_case (true) default_options)
 (nd (NDocument) 1 1 1 30
 [nd (NHeading 1) 1 1 1 30
  [nd (NText (u "Using ")) 1 3 1 8 []; nd (NCode (u "MyClass")) 1 9 1 17 []; nd (NText (u " In Your Code")) 1 18 1 30 []]])
 [Is (u "Using `MyClass` in your code" ++ [c_nl] ++ u "============================" ++ [c_nl])] = true.
Proof. vm_compute. reflexivity. Qed.
Example test_heading_sentence_case_disabled : run (default_options)
 (nd (NDocument) 1 1 1 13
 [nd (NHeading 1) 1 1 1 13
  [nd (NText (u "Hello World")) 1 3 1 13 []]])
 [Is (u "Hello World" ++ [c_nl] ++ u "===========" ++ [c_nl])] = true.
Proof. vm_compute. reflexivity. Qed.
Example test_heading_sentence_case_atx_style : run (with_heading_sentence_case (true) default_options)
 (nd (NDocument) 1 1 1 21
 [nd (NHeading 3) 1 1 1 21
  [nd (NText (u "Working With APIs")) 1 5 1 21 []]])
 [Is (u "### Working with APIs" ++ [c_nl])] = true.
Proof. vm_compute. reflexivity. Qed.
Example test_heading_sentence_case_with_quotes : run (with_heading_sentence_case (true) default_options)
 (nd (NDocument) 1 1 1 35
 [nd (NHeading 1) 1 1 1 35
  [nd (NText (u "Smart Suggestion: ""Did You Mean?""")) 1 3 1 35 []]])
 [Is (u "Smart suggestion: “Did you mean?”" ++ [c_nl] ++ u "=================================" ++ [c_nl])] = true.
Proof. vm_compute. reflexivity. Qed.
Example test_heading_sentence_case_non_latin : run (with_heading_sentence_case (true) default_options)
 (nd (NDocument) 1 1 1 28
 [nd (NHeading 1) 1 1 1 28
  [nd (NText (u "한글 제목 With English")) 1 3 1 28 []]])
 [Is (u "한글 제목 with English" ++ [c_nl] ++ u "======================" ++ [c_nl])] = true.
Proof. vm_compute. reflexivity. Qed.
Example test_heading_sentence_case_starting_with_code_span : run (with_heading_sentence_case (true) default_options)
 (nd (NDocument) 1 1 1 14
 [nd (NHeading 1) 1 1 1 14
  [nd (NCode (u "Foo")) 1 3 1 7 []; nd (NText (u " object")) 1 8 1 14 []]])
 [Is (u "`Foo` object" ++ [c_nl] ++ u "============" ++ [c_nl])] = true.
Proof. vm_compute. reflexivity. Qed.
Example test_heading_sentence_case_proper_noun_in_parentheses : run (with_heading_sentence_case (true) default_options)
 (nd (NDocument) 1 1 1 18
 [nd (NHeading 1) 1 1 1 18
  [nd (NText (u "Test (Deno only)")) 1 3 1 18 []]])
 [Is (u "Test (Deno only)" ++ [c_nl] ++ u "================" ++ [c_nl])] = true.
Proof. vm_compute. reflexivity. Qed.
Example test_code_block_with_formatter_success : run (with_code_formatters ([(u "text", mkCodeFormatter [u "cat"] 5%N)]) default_options)
 (nd (NDocument) 1 1 3 4
 [nd (NCodeBlock (u "text") (u "hello world" ++ [c_nl])) 1 1 3 4 []])
 [Is (u "~~~~ text" ++ [c_nl] ++ u "hello world" ++ [c_nl] ++ u "~~~~" ++ [c_nl])] = true.
Proof. vm_compute. reflexivity. Qed.
Example test_code_block_formatter_transforms_content : run (with_code_formatters ([(u "upper", mkCodeFormatter [u "tr"; u "a-z"; u "A-Z"] 5%N)]) default_options)
 (nd (NDocument) 1 1 3 4
 [nd (NCodeBlock (u "upper") (u "hello world" ++ [c_nl])) 1 1 3 4 []])
 [Is (u "~~~~ upper" ++ [c_nl] ++ u "HELLO WORLD" ++ [c_nl] ++ u "~~~~" ++ [c_nl])] = true.
Proof. vm_compute. reflexivity. Qed.
Example test_code_block_formatter_failure_preserves_original : run_source (u "~~~~ text" ++ [c_nl] ++ u "hello world" ++ [c_nl] ++ u "~~~~" ++ [c_nl]) (with_code_formatters ([(u "text", mkCodeFormatter [u "false"] 5%N)]) default_options)
 (nd (NDocument) 1 1 3 4
 [nd (NCodeBlock (u "text") (u "hello world" ++ [c_nl])) 1 1 3 4 []])
 [Is (u "~~~~ text" ++ [c_nl] ++ u "hello world" ++ [c_nl] ++ u "~~~~" ++ [c_nl]);
  Not (Warned 0);
  WarnHas 0 (u "failed")] = true.
Proof. vm_compute. reflexivity. Qed.
Example test_code_block_no_formatter_for_language : run (default_options)
 (nd (NDocument) 1 1 3 4
 [nd (NCodeBlock (u "rust") (u "fn main() {}" ++ [c_nl])) 1 1 3 4 []])
 [Is (u "~~~~ rust" ++ [c_nl] ++ u "fn main() {}" ++ [c_nl] ++ u "~~~~" ++ [c_nl])] = true.
Proof. vm_compute. reflexivity. Qed.
Example test_code_block_formatter_exact_language_match_result : run (with_code_formatters ([(u "javascript", mkCodeFormatter [u "tr"; u "a-z"; u "A-Z"] 5%N)]) default_options)
 (nd (NDocument) 1 1 3 4
 [nd (NCodeBlock (u "js") (u "hello" ++ [c_nl])) 1 1 3 4 []])
 [Is (u "~~~~ js" ++ [c_nl] ++ u "hello" ++ [c_nl] ++ u "~~~~" ++ [c_nl])] = true.
Proof. vm_compute. reflexivity. Qed.
Example test_code_block_formatter_exact_language_match_result2 : run (with_code_formatters ([(u "javascript", mkCodeFormatter [u "tr"; u "a-z"; u "A-Z"] 5%N)]) default_options)
 (nd (NDocument) 1 1 3 4
 [nd (NCodeBlock (u "javascript") (u "hello" ++ [c_nl])) 1 1 3 4 []])
 [Is (u "~~~~ javascript" ++ [c_nl] ++ u "HELLO" ++ [c_nl] ++ u "~~~~" ++ [c_nl])] = true.
Proof. vm_compute. reflexivity. Qed.
Example test_code_block_formatter_timeout : run_source (u "~~~~ slow" ++ [c_nl] ++ u "hello" ++ [c_nl] ++ u "~~~~" ++ [c_nl]) (with_code_formatters ([(u "slow", mkCodeFormatter [u "sleep"; u "10"] 1%N)]) default_options)
 (nd (NDocument) 1 1 3 4
 [nd (NCodeBlock (u "slow") (u "hello" ++ [c_nl])) 1 1 3 4 []])
 [Is (u "~~~~ slow" ++ [c_nl] ++ u "hello" ++ [c_nl] ++ u "~~~~" ++ [c_nl]);
  Not (Warned 0);
  WarnHas 0 (u "timed out")] = true.
Proof. vm_compute. reflexivity. Qed.
Example test_code_block_formatter_with_default_language : run (with_default_language (u "text") (with_code_formatters ([(u "text", mkCodeFormatter [u "tr"; u "a-z"; u "A-Z"] 5%N)]) default_options))
 (nd (NDocument) 1 1 3 4
 [nd (NCodeBlock ([]) (u "hello" ++ [c_nl])) 1 1 3 4 []])
 [Is (u "~~~~ text" ++ [c_nl] ++ u "HELLO" ++ [c_nl] ++ u "~~~~" ++ [c_nl])] = true.
Proof. vm_compute. reflexivity. Qed.
Example test_code_block_no_format_skips_formatter : run (with_code_formatters ([(u "upper", mkCodeFormatter [u "tr"; u "a-z"; u "A-Z"] 5%N)]) default_options)
 (nd (NDocument) 1 1 3 4
 [nd (NCodeBlock (u "upper hongdown-no-format") (u "hello world" ++ [c_nl])) 1 1 3 4 []])
 [Is (u "~~~~ upper hongdown-no-format" ++ [c_nl] ++ u "hello world" ++ [c_nl] ++ u "~~~~" ++ [c_nl])] = true.
Proof. vm_compute. reflexivity. Qed.
Example test_code_block_no_format_preserves_keyword_in_output : run (default_options)
 (nd (NDocument) 1 1 3 4
 [nd (NCodeBlock (u "python hongdown-no-format") (u "def hello(): pass" ++ [c_nl])) 1 1 3 4 []])
 [Has (u "hongdown-no-format");
  Is (u "~~~~ python hongdown-no-format" ++ [c_nl] ++ u "def hello(): pass" ++ [c_nl] ++ u "~~~~" ++ [c_nl])] = true.
Proof. vm_compute. reflexivity. Qed.
Example test_code_block_no_format_without_formatter_configured : run (default_options)
 (nd (NDocument) 1 1 3 4
 [nd (NCodeBlock (u "rust hongdown-no-format") (u "fn main() {}" ++ [c_nl])) 1 1 3 4 []])
 [Is (u "~~~~ rust hongdown-no-format" ++ [c_nl] ++ u "fn main() {}" ++ [c_nl] ++ u "~~~~" ++ [c_nl])] = true.
Proof. vm_compute. reflexivity. Qed.
Example test_code_block_no_format_idempotent : run (default_options)
 (nd (NDocument) 1 1 3 4
 [nd (NCodeBlock (u "js hongdown-no-format") (u "const x = 1;" ++ [c_nl])) 1 1 3 4 []])
 [Is (u "~~~~ js hongdown-no-format" ++ [c_nl] ++ u "const x = 1;" ++ [c_nl] ++ u "~~~~" ++ [c_nl])] = true.
Proof. vm_compute. reflexivity. Qed.
Example test_code_block_no_format_in_list_item : run (with_code_formatters ([(u "upper", mkCodeFormatter [u "tr"; u "a-z"; u "A-Z"] 5%N)]) default_options)
 (nd (NDocument) 1 1 5 8
 [nd (NList Bullet false) 1 2 5 8
  [nd (NItem) 1 2 5 8
   [nd (NParagraph) 1 5 1 9
    [nd (NText (u "Item:")) 1 5 1 9 []];
   nd (NCodeBlock (u "upper hongdown-no-format") (u "hello" ++ [c_nl])) 3 5 5 8 []]]])
 [Has (u "hello");
  Not (Has (u "HELLO"));
  Has (u "hongdown-no-format")] = true.
Proof. vm_compute. reflexivity. Qed.
Example test_code_block_no_format_multiple_metadata : run (default_options)
 (nd (NDocument) 1 1 3 4
 [nd (NCodeBlock (u "python some-other-info hongdown-no-format") (u "code" ++ [c_nl])) 1 1 3 4 []])
 [Has (u "hongdown-no-format");
  Has (u "some-other-info")] = true.
Proof. vm_compute. reflexivity. Qed.
Example test_footnote_definition_before_hongdown_disable : run_source (u "Blah blah blah blah.[^1]" ++ [c_nl] ++ [c_nl] ++ u "[^1]: This is a footnote." ++ [c_nl] ++ [c_nl] ++ u "<!-- hongdown-disable -->" ++ [c_nl] ++ [c_nl] ++ u "### Foo bar" ++ [c_nl] ++ [c_nl] ++ u "Some content here." ++ [c_nl] ++ [c_nl] ++ u "<!-- hongdown-enable -->" ++ [c_nl]) (default_options)
 (nd (NDocument) 1 1 11 24
 [nd (NParagraph) 1 1 1 24
  [nd (NText (u "Blah blah blah blah.")) 1 1 1 20 []; nd (NFootnoteReference (u "1")) 1 21 1 24 []];
 nd (NHtmlBlock (u "<!-- hongdown-disable -->" ++ [c_nl])) 5 1 5 25 [];
 nd (NHeading 3) 7 1 7 11
  [nd (NText (u "Foo bar")) 7 5 7 11 []];
 nd (NParagraph) 9 1 9 18
  [nd (NText (u "Some content here.")) 9 1 9 18 []];
 nd (NHtmlBlock (u "<!-- hongdown-enable -->" ++ [c_nl])) 11 1 11 24 [];
 nd (NFootnoteDefinition (u "1")) 3 1 3 25
  [nd (NParagraph) 3 7 3 25
   [nd (NText (u "This is a footnote.")) 3 7 3 25 []]]])
 [Before (u "[^1]:") (u "<!-- hongdown-disable -->")] = true.
Proof. vm_compute. reflexivity. Qed.
Example test_reference_definition_before_hongdown_disable : run_source (u "Blah blah blah blah.[Example]" ++ [c_nl] ++ [c_nl] ++ u "[Example]: https://example.com/" ++ [c_nl] ++ [c_nl] ++ u "<!-- hongdown-disable -->" ++ [c_nl] ++ [c_nl] ++ u "### Foo bar" ++ [c_nl] ++ [c_nl] ++ u "Some content here." ++ [c_nl] ++ [c_nl] ++ u "<!-- hongdown-enable -->" ++ [c_nl]) (default_options)
 (nd (NDocument) 1 1 11 24
 [nd (NParagraph) 1 1 1 29
  [nd (NText (u "Blah blah blah blah.")) 1 1 1 20 []; nd (NLink (u "https://example.com/") ([])) 1 21 1 29
   [nd (NText (u "Example")) 1 22 1 28 []]];
 nd (NHtmlBlock (u "<!-- hongdown-disable -->" ++ [c_nl])) 5 1 5 25 [];
 nd (NHeading 3) 7 1 7 11
  [nd (NText (u "Foo bar")) 7 5 7 11 []];
 nd (NParagraph) 9 1 9 18
  [nd (NText (u "Some content here.")) 9 1 9 18 []];
 nd (NHtmlBlock (u "<!-- hongdown-enable -->" ++ [c_nl])) 11 1 11 24 []])
 [Before (u "[Example]:") (u "<!-- hongdown-disable -->")] = true.
Proof. vm_compute. reflexivity. Qed.
Example test_multiple_footnotes_and_references_before_hongdown_disable : run_source (u "First paragraph with [link1] and footnote[^1]." ++ [c_nl] ++ [c_nl] ++ u "Second paragraph with [link2] and footnote[^2]." ++ [c_nl] ++ [c_nl] ++ u "[link1]: https://link1.example.com/" ++ [c_nl] ++ u "[^1]: First footnote." ++ [c_nl] ++ u "[link2]: https://link2.example.com/" ++ [c_nl] ++ u "[^2]: Second footnote." ++ [c_nl] ++ [c_nl] ++ u "<!-- hongdown-disable -->" ++ [c_nl] ++ [c_nl] ++ u "### Disabled section" ++ [c_nl] ++ [c_nl] ++ u "Some content here." ++ [c_nl] ++ [c_nl] ++ u "<!-- hongdown-enable -->" ++ [c_nl]) (default_options)
 (nd (NDocument) 1 1 16 24
 [nd (NParagraph) 1 1 1 46
  [nd (NText (u "First paragraph with ")) 1 1 1 21 []; nd (NLink (u "https://link1.example.com/") ([])) 1 22 1 28
   [nd (NText (u "link1")) 1 23 1 27 []]; nd (NText (u " and footnote")) 1 29 1 41 []; nd (NFootnoteReference (u "1")) 1 42 1 45 []; nd (NText (u ".")) 1 46 1 46 []];
 nd (NParagraph) 3 1 3 47
  [nd (NText (u "Second paragraph with [link2] and footnote")) 3 1 3 42 []; nd (NFootnoteReference (u "2")) 3 43 3 46 []; nd (NText (u ".")) 3 47 3 47 []];
 nd (NHtmlBlock (u "<!-- hongdown-disable -->" ++ [c_nl])) 10 1 10 25 [];
 nd (NHeading 3) 12 1 12 20
  [nd (NText (u "Disabled section")) 12 5 12 20 []];
 nd (NParagraph) 14 1 14 18
  [nd (NText (u "Some content here.")) 14 1 14 18 []];
 nd (NHtmlBlock (u "<!-- hongdown-enable -->" ++ [c_nl])) 16 1 16 24 [];
 nd (NFootnoteDefinition (u "1")) 6 1 7 35
  [nd (NParagraph) 6 7 7 35
   [nd (NText (u "First footnote.")) 6 7 6 21 []; nd (NSoftBreak) 6 22 6 22 []; nd (NText (u "[link2]: https://link2.example.com/")) 7 1 7 35 []]];
 nd (NFootnoteDefinition (u "2")) 8 1 8 22
  [nd (NParagraph) 8 7 8 22
   [nd (NText (u "Second footnote.")) 8 7 8 22 []]]])
 [Before (u "[^1]:") (u "<!-- hongdown-disable -->");
  Before (u "[^2]:") (u "<!-- hongdown-disable -->");
  Before (u "[link1]:") (u "<!-- hongdown-disable -->");
  Before (u "[link2]:") (u "<!-- hongdown-disable -->")] = true.
Proof. vm_compute. reflexivity. Qed.
Example test_footnote_definition_before_hongdown_disable_file : run_source (u "Blah blah blah blah.[^1]" ++ [c_nl] ++ [c_nl] ++ u "[^1]: This is a footnote." ++ [c_nl] ++ [c_nl] ++ u "<!-- hongdown-disable-file -->" ++ [c_nl] ++ [c_nl] ++ u "### Foo bar" ++ [c_nl] ++ [c_nl] ++ u "Some content here." ++ [c_nl]) (default_options)
 (nd (NDocument) 1 1 9 18
 [nd (NParagraph) 1 1 1 24
  [nd (NText (u "Blah blah blah blah.")) 1 1 1 20 []; nd (NFootnoteReference (u "1")) 1 21 1 24 []];
 nd (NHtmlBlock (u "<!-- hongdown-disable-file -->" ++ [c_nl])) 5 1 5 30 [];
 nd (NHeading 3) 7 1 7 11
  [nd (NText (u "Foo bar")) 7 5 7 11 []];
 nd (NParagraph) 9 1 9 18
  [nd (NText (u "Some content here.")) 9 1 9 18 []];
 nd (NFootnoteDefinition (u "1")) 3 1 3 25
  [nd (NParagraph) 3 7 3 25
   [nd (NText (u "This is a footnote.")) 3 7 3 25 []]]])
 [Before (u "[^1]:") (u "<!-- hongdown-disable-file -->")] = true.
Proof. vm_compute. reflexivity. Qed.
Example test_footnote_definition_before_hongdown_disable_next_line : run_source (u "Blah blah blah blah.[^1]" ++ [c_nl] ++ [c_nl] ++ u "[^1]: This is a footnote." ++ [c_nl] ++ [c_nl] ++ u "<!-- hongdown-disable-next-line -->" ++ [c_nl] ++ u "### Foo bar" ++ [c_nl] ++ [c_nl] ++ u "Some content here." ++ [c_nl]) (default_options)
 (nd (NDocument) 1 1 8 18
 [nd (NParagraph) 1 1 1 24
  [nd (NText (u "Blah blah blah blah.")) 1 1 1 20 []; nd (NFootnoteReference (u "1")) 1 21 1 24 []];
 nd (NHtmlBlock (u "<!-- hongdown-disable-next-line -->" ++ [c_nl])) 5 1 5 35 [];
 nd (NHeading 3) 6 1 6 11
  [nd (NText (u "Foo bar")) 6 5 6 11 []];
 nd (NParagraph) 8 1 8 18
  [nd (NText (u "Some content here.")) 8 1 8 18 []];
 nd (NFootnoteDefinition (u "1")) 3 1 3 25
  [nd (NParagraph) 3 7 3 25
   [nd (NText (u "This is a footnote.")) 3 7 3 25 []]]])
 [Before (u "[^1]:") (u "<!-- hongdown-disable-next-line -->")] = true.
Proof. vm_compute. reflexivity. Qed.
Example test_footnote_definition_before_hongdown_disable_next_section : run_source (u "Blah blah blah blah.[^1]" ++ [c_nl] ++ [c_nl] ++ u "[^1]: This is a footnote." ++ [c_nl] ++ [c_nl] ++ u "<!-- hongdown-disable-next-section -->" ++ [c_nl] ++ [c_nl] ++ u "## Foo bar" ++ [c_nl] ++ [c_nl] ++ u "Some content here." ++ [c_nl]) (default_options)
 (nd (NDocument) 1 1 9 18
 [nd (NParagraph) 1 1 1 24
  [nd (NText (u "Blah blah blah blah.")) 1 1 1 20 []; nd (NFootnoteReference (u "1")) 1 21 1 24 []];
 nd (NHtmlBlock (u "<!-- hongdown-disable-next-section -->" ++ [c_nl])) 5 1 5 38 [];
 nd (NHeading 2) 7 1 7 10
  [nd (NText (u "Foo bar")) 7 4 7 10 []];
 nd (NParagraph) 9 1 9 18
  [nd (NText (u "Some content here.")) 9 1 9 18 []];
 nd (NFootnoteDefinition (u "1")) 3 1 3 25
  [nd (NParagraph) 3 7 3 25
   [nd (NText (u "This is a footnote.")) 3 7 3 25 []]]])
 [Before (u "[^1]:") (u "<!-- hongdown-disable-next-section -->")] = true.
Proof. vm_compute. reflexivity. Qed.
Example test_definition_list_with_unordered_list_first_child_idempotent_second_pass : run (default_options)
 (nd (NDocument) 1 1 3 19
 [nd (NDescriptionList) 1 1 3 19
  [nd (NDescriptionItem) 1 1 3 19
   [nd (NDescriptionTerm) 1 1 1 4
    [nd (NParagraph) 1 1 1 4
     [nd (NText (u "Pros")) 1 1 1 4 []]];
   nd (NDescriptionDetails) 2 1 3 19
    [nd (NList Bullet true) 2 6 3 19
     [nd (NItem) 2 6 2 18
      [nd (NParagraph) 2 9 2 18
       [nd (NText (u "First item")) 2 9 2 18 []]];
     nd (NItem) 3 6 3 19
      [nd (NParagraph) 3 9 3 19
       [nd (NText (u "Second item")) 3 9 3 19 []]]]]]]])
 [Is (u "Pros" ++ [c_nl] ++ u ":    -  First item" ++ [c_nl] ++ u "     -  Second item" ++ [c_nl])] = true.
Proof. vm_compute. reflexivity. Qed.
Example test_definition_list_with_unordered_list_first_child_idempotent_third_pass : run (default_options)
 (nd (NDocument) 1 1 3 19
 [nd (NDescriptionList) 1 1 3 19
  [nd (NDescriptionItem) 1 1 3 19
   [nd (NDescriptionTerm) 1 1 1 4
    [nd (NParagraph) 1 1 1 4
     [nd (NText (u "Pros")) 1 1 1 4 []]];
   nd (NDescriptionDetails) 2 1 3 19
    [nd (NList Bullet true) 2 6 3 19
     [nd (NItem) 2 6 2 18
      [nd (NParagraph) 2 9 2 18
       [nd (NText (u "First item")) 2 9 2 18 []]];
     nd (NItem) 3 6 3 19
      [nd (NParagraph) 3 9 3 19
       [nd (NText (u "Second item")) 3 9 3 19 []]]]]]]])
 [Is (u "Pros" ++ [c_nl] ++ u ":    -  First item" ++ [c_nl] ++ u "     -  Second item" ++ [c_nl])] = true.
Proof. vm_compute. reflexivity. Qed.
Example test_definition_list_with_ordered_list_first_child_idempotent : run (default_options)
 (nd (NDocument) 1 1 3 20
 [nd (NDescriptionList) 1 1 3 20
  [nd (NDescriptionItem) 1 1 3 20
   [nd (NDescriptionTerm) 1 1 1 5
    [nd (NParagraph) 1 1 1 5
     [nd (NText (u "Steps")) 1 1 1 5 []]];
   nd (NDescriptionDetails) 2 1 3 20
    [nd (NList Ordered true) 2 6 3 20
     [nd (NItem) 2 6 2 19
      [nd (NParagraph) 2 10 2 19
       [nd (NText (u "First step")) 2 10 2 19 []]];
     nd (NItem) 3 6 3 20
      [nd (NParagraph) 3 10 3 20
       [nd (NText (u "Second step")) 3 10 3 20 []]]]]]]])
 [Is (u "Steps" ++ [c_nl] ++ u ":    1.  First step" ++ [c_nl] ++ u "     2.  Second step" ++ [c_nl])] = true.
Proof. vm_compute. reflexivity. Qed.
Example test_definition_list_multiple_items_with_lists_idempotent : run (default_options)
 (nd (NDocument) 1 1 5 71
 [nd (NDescriptionList) 1 1 5 71
  [nd (NDescriptionItem) 1 1 2 42
   [nd (NDescriptionTerm) 1 1 1 4
    [nd (NParagraph) 1 1 1 4
     [nd (NText (u "Pros")) 1 1 1 4 []]];
   nd (NDescriptionDetails) 2 1 2 42
    [nd (NList Bullet true) 2 6 2 42
     [nd (NItem) 2 6 2 42
      [nd (NParagraph) 2 9 2 42
       [nd (NText (u "The actor URI is more predictable.")) 2 9 2 42 []]]]]];
  nd (NDescriptionItem) 4 1 5 71
   [nd (NDescriptionTerm) 4 1 4 4
    [nd (NParagraph) 4 1 4 4
     [nd (NText (u "Cons")) 4 1 4 4 []]];
   nd (NDescriptionDetails) 5 1 5 71
    [nd (NList Bullet true) 5 6 5 71
     [nd (NItem) 5 6 5 71
      [nd (NParagraph) 5 9 5 71
       [nd (NText (u "Changing the WebFinger username may break the existing network.")) 5 9 5 71 []]]]]]]])
 [Is (u "Pros" ++ [c_nl] ++ u ":    -  The actor URI is more predictable." ++ [c_nl] ++ [c_nl] ++ u "Cons" ++ [c_nl] ++ u ":    -  Changing the WebFinger username may break the existing network." ++ [c_nl])] = true.
Proof. vm_compute. reflexivity. Qed.
Example test_definition_list_with_list_continuation_line_indentation_result : run (default_options)
 (nd (NDocument) 1 1 7 61
 [nd (NDescriptionList) 1 1 7 61
  [nd (NDescriptionItem) 1 1 3 37
   [nd (NDescriptionTerm) 1 1 1 4
    [nd (NParagraph) 1 1 1 4
     [nd (NText (u "Pros")) 1 1 1 4 []]];
   nd (NDescriptionDetails) 2 1 3 37
    [nd (NList Bullet true) 2 6 3 37
     [nd (NItem) 2 6 3 37
      [nd (NParagraph) 2 9 3 37
       [nd (NText (u "The actor URI is more predictable and human-readable,")) 2 9 2 61 []; nd (NSoftBreak) 2 62 2 62 []; nd (NText (u "which makes debugging easier.")) 3 9 3 37 []]]]]];
  nd (NDescriptionItem) 5 1 7 61
   [nd (NDescriptionTerm) 5 1 5 4
    [nd (NParagraph) 5 1 5 4
     [nd (NText (u "Cons")) 5 1 5 4 []]];
   nd (NDescriptionDetails) 6 1 7 61
    [nd (NList Bullet true) 6 6 7 61
     [nd (NItem) 6 6 7 61
      [nd (NParagraph) 6 9 7 61
       [nd (NText (u "Changing the WebFinger username may break the existing network.")) 6 9 6 71 []; nd (NSoftBreak) 6 72 6 72 []; nd (NText (u "Hence, the fediverse handle is immutable in practice.")) 7 9 7 61 []]]]]]]])
 [Has (u ":    -  The actor URI is more predictable and human-readable," ++ [c_nl] ++ u "        which makes debugging easier.");
  Has (u ":    -  Changing the WebFinger username may break the existing network." ++ [c_nl] ++ u "        Hence, the fediverse handle is immutable in practice.")] = true.
Proof. vm_compute. reflexivity. Qed.
Example test_definition_list_with_list_continuation_line_indentation_second_pass : run (default_options)
 (nd (NDocument) 1 1 7 61
 [nd (NDescriptionList) 1 1 7 61
  [nd (NDescriptionItem) 1 1 3 37
   [nd (NDescriptionTerm) 1 1 1 4
    [nd (NParagraph) 1 1 1 4
     [nd (NText (u "Pros")) 1 1 1 4 []]];
   nd (NDescriptionDetails) 2 1 3 37
    [nd (NList Bullet true) 2 6 3 37
     [nd (NItem) 2 6 3 37
      [nd (NParagraph) 2 9 3 37
       [nd (NText (u "The actor URI is more predictable and human-readable,")) 2 9 2 61 []; nd (NSoftBreak) 2 62 2 62 []; nd (NText (u "which makes debugging easier.")) 3 9 3 37 []]]]]];
  nd (NDescriptionItem) 5 1 7 61
   [nd (NDescriptionTerm) 5 1 5 4
    [nd (NParagraph) 5 1 5 4
     [nd (NText (u "Cons")) 5 1 5 4 []]];
   nd (NDescriptionDetails) 6 1 7 61
    [nd (NList Bullet true) 6 6 7 61
     [nd (NItem) 6 6 7 61
      [nd (NParagraph) 6 9 7 61
       [nd (NText (u "Changing the WebFinger username may break the existing network.")) 6 9 6 71 []; nd (NSoftBreak) 6 72 6 72 []; nd (NText (u "Hence, the fediverse handle is immutable in practice.")) 7 9 7 61 []]]]]]]])
 [Is (u "Pros" ++ [c_nl] ++ u ":    -  The actor URI is more predictable and human-readable," ++ [c_nl] ++ u "        which makes debugging easier." ++ [c_nl] ++ [c_nl] ++ u "Cons" ++ [c_nl] ++ u ":    -  Changing the WebFinger username may break the existing network." ++ [c_nl] ++ u "        Hence, the fediverse handle is immutable in practice." ++ [c_nl])] = true.
Proof. vm_compute. reflexivity. Qed.
Example test_possessive_apostrophe_after_digit_stays_straight : run (default_options)
 (nd (NDocument) 1 1 1 26
 [nd (NParagraph) 1 1 1 26
  [nd (NText (u "Version 1.2.3's highlight.")) 1 1 1 26 []]])
 [Is (u "Version 1.2.3's highlight." ++ [c_nl])] = true.
Proof. vm_compute. reflexivity. Qed.
Example test_possessive_apostrophe_after_digit_curly_when_enabled : run (with_curly_apostrophes (true) default_options)
 (nd (NDocument) 1 1 1 26
 [nd (NParagraph) 1 1 1 26
  [nd (NText (u "Version 1.2.3's highlight.")) 1 1 1 26 []]])
 [Is (u "Version 1.2.3’s highlight." ++ [c_nl])] = true.
Proof. vm_compute. reflexivity. Qed.
Example test_serialize_windows_path_in_italic : run_source (u "*C:\Users\Alice\Documents*") (default_options)
 (nd (NDocument) 1 1 1 26
 [nd (NParagraph) 1 1 1 26
  [nd (NEmph) 1 1 1 26
   [nd (NText (u "C:\Users\Alice\Documents")) 1 2 1 25 []]]])
 [Is (u "*C:\\Users\\Alice\\Documents*" ++ [c_nl])] = true.
Proof. vm_compute. reflexivity. Qed.
Example test_serialize_mixed_escapes_in_italic : run_source (u "*node\_modules at C:\Program Files*") (default_options)
 (nd (NDocument) 1 1 1 35
 [nd (NParagraph) 1 1 1 35
  [nd (NEmph) 1 1 1 35
   [nd (NText (u "node_modules at C:\Program Files")) 1 2 1 34 []]]])
 [Is (u "*node\_modules at C:\\Program Files*" ++ [c_nl])] = true.
Proof. vm_compute. reflexivity. Qed.
Example test_serialize_backslash_before_space : run_source (u "*C:\Program Files\ folder*") (default_options)
 (nd (NDocument) 1 1 1 26
 [nd (NParagraph) 1 1 1 26
  [nd (NEmph) 1 1 1 26
   [nd (NText (u "C:\Program Files\ folder")) 1 2 1 25 []]]])
 [Is (u "*C:\\Program Files\\ folder*" ++ [c_nl])] = true.
Proof. vm_compute. reflexivity. Qed.
Example test_serialize_windows_path_in_strong : run_source (u "**C:\Users**") (default_options)
 (nd (NDocument) 1 1 1 12
 [nd (NParagraph) 1 1 1 12
  [nd (NStrong) 1 1 1 12
   [nd (NText (u "C:\Users")) 1 3 1 10 []]]])
 [Is (u "**C:\\Users**" ++ [c_nl])] = true.
Proof. vm_compute. reflexivity. Qed.
Example test_serialize_windows_path_plain_text : run_source (u "C:\Users\Alice\Documents") (default_options)
 (nd (NDocument) 1 1 1 24
 [nd (NParagraph) 1 1 1 24
  [nd (NText (u "C:\Users\Alice\Documents")) 1 1 1 24 []]])
 [Is (u "C:\\Users\\Alice\\Documents" ++ [c_nl])] = true.
Proof. vm_compute. reflexivity. Qed.
Example test_footnote_with_code_block : run (default_options)
 (nd (NDocument) 1 1 8 10
 [nd (NParagraph) 1 1 1 41
  [nd (NText (u "Testing a footnote with a code block.")) 1 1 1 37 []; nd (NFootnoteReference (u "1")) 1 38 1 41 []];
 nd (NFootnoteDefinition (u "1")) 3 1 8 10
  [nd (NParagraph) 3 7 3 45
   [nd (NText (u "Here is a code block inside a footnote:")) 3 7 3 45 []];
  nd (NCodeBlock (u "python") (u "def hello_world():" ++ [c_nl] ++ u "    print(""Hello, world!"")" ++ [c_nl])) 5 7 8 10 []]])
 [Has (u "def hello_world():");
  Has (u "~~~~");
  Has (u "footnote:" ++ [c_nl] ++ [c_nl])] = true.
Proof. vm_compute. reflexivity. Qed.
Example test_footnote_with_blockquote : run (default_options)
 (nd (NDocument) 1 1 6 24
 [nd (NParagraph) 1 1 1 23
  [nd (NText (u "Text with footnote.")) 1 1 1 19 []; nd (NFootnoteReference (u "1")) 1 20 1 23 []];
 nd (NFootnoteDefinition (u "1")) 3 1 6 24
  [nd (NParagraph) 3 7 3 33
   [nd (NText (u "Footnote with a blockquote:")) 3 7 3 33 []];
  nd (NBlockQuote) 5 7 6 24
   [nd (NParagraph) 5 9 6 24
    [nd (NText (u "This is a quote")) 5 9 5 23 []; nd (NSoftBreak) 5 24 5 24 []; nd (NText (u "in the footnote.")) 6 9 6 24 []]]]])
 [Has (u "> This is a quote");
  Has (u "> in the footnote.")] = true.
Proof. vm_compute. reflexivity. Qed.
Example test_footnote_with_unordered_list : run (default_options)
 (nd (NDocument) 1 1 7 20
 [nd (NParagraph) 1 1 1 23
  [nd (NText (u "Text with footnote.")) 1 1 1 19 []; nd (NFootnoteReference (u "1")) 1 20 1 23 []];
 nd (NFootnoteDefinition (u "1")) 3 1 7 20
  [nd (NParagraph) 3 7 3 27
   [nd (NText (u "Footnote with a list:")) 3 7 3 27 []];
  nd (NList Bullet true) 5 8 7 20
   [nd (NItem) 5 8 5 20
    [nd (NParagraph) 5 11 5 20
     [nd (NText (u "First item")) 5 11 5 20 []]];
   nd (NItem) 6 8 6 21
    [nd (NParagraph) 6 11 6 21
     [nd (NText (u "Second item")) 6 11 6 21 []]];
   nd (NItem) 7 8 7 20
    [nd (NParagraph) 7 11 7 20
     [nd (NText (u "Third item")) 7 11 7 20 []]]]]])
 [Has (u " -  First item");
  Has (u " -  Second item")] = true.
Proof. vm_compute. reflexivity. Qed.
Example test_footnote_with_ordered_list : run (default_options)
 (nd (NDocument) 1 1 7 20
 [nd (NParagraph) 1 1 1 23
  [nd (NText (u "Text with footnote.")) 1 1 1 19 []; nd (NFootnoteReference (u "1")) 1 20 1 23 []];
 nd (NFootnoteDefinition (u "1")) 3 1 7 20
  [nd (NParagraph) 3 7 3 36
   [nd (NText (u "Footnote with an ordered list:")) 3 7 3 36 []];
  nd (NList Ordered true) 5 7 7 20
   [nd (NItem) 5 7 5 20
    [nd (NParagraph) 5 11 5 20
     [nd (NText (u "First item")) 5 11 5 20 []]];
   nd (NItem) 6 7 6 21
    [nd (NParagraph) 6 11 6 21
     [nd (NText (u "Second item")) 6 11 6 21 []]];
   nd (NItem) 7 7 7 20
    [nd (NParagraph) 7 11 7 20
     [nd (NText (u "Third item")) 7 11 7 20 []]]]]])
 [Has (u "1.  First item");
  Has (u "2.  Second item")] = true.
Proof. vm_compute. reflexivity. Qed.
Example test_footnote_with_multiple_paragraphs_separated : run (default_options)
 (nd (NDocument) 1 1 7 27
 [nd (NParagraph) 1 1 1 23
  [nd (NText (u "Text with footnote.")) 1 1 1 19 []; nd (NFootnoteReference (u "1")) 1 20 1 23 []];
 nd (NFootnoteDefinition (u "1")) 3 1 7 27
  [nd (NParagraph) 3 7 3 34
   [nd (NText (u "First paragraph in footnote.")) 3 7 3 34 []];
  nd (NParagraph) 5 7 5 28
   [nd (NText (u "Second paragraph here.")) 5 7 5 28 []];
  nd (NParagraph) 7 7 7 27
   [nd (NText (u "Third paragraph here.")) 7 7 7 27 []]]])
 [Has (u "First paragraph in footnote.");
  Has (u "Second paragraph here.");
  Has (u "Third paragraph here.");
  Has (u "footnote." ++ [c_nl] ++ [c_nl])] = true.
Proof. vm_compute. reflexivity. Qed.
Example test_footnote_with_mixed_blocks : run (default_options)
 (nd (NDocument) 1 1 11 21
 [nd (NParagraph) 1 1 1 23
  [nd (NText (u "Text with footnote.")) 1 1 1 19 []; nd (NFootnoteReference (u "1")) 1 20 1 23 []];
 nd (NFootnoteDefinition (u "1")) 3 1 11 21
  [nd (NParagraph) 3 7 3 22
   [nd (NText (u "First paragraph.")) 3 7 3 22 []];
  nd (NBlockQuote) 5 7 5 21
   [nd (NParagraph) 5 9 5 21
    [nd (NText (u "A blockquote.")) 5 9 5 21 []]];
  nd (NCodeBlock (u "python") (u "print(""code"")" ++ [c_nl])) 7 7 9 10 [];
  nd (NList Bullet true) 11 8 11 21
   [nd (NItem) 11 8 11 21
    [nd (NParagraph) 11 11 11 21
     [nd (NText (u "A list item")) 11 11 11 21 []]]]]])
 [Has (u "First paragraph.");
  Has (u "> A blockquote.");
  Has (u "print(""code"")");
  Has (u " -  A list item")] = true.
Proof. vm_compute. reflexivity. Qed.
Example test_footnote_respects_custom_line_width_simple : run (with_line_width (60) default_options)
 (nd (NDocument) 1 1 3 141
 [nd (NParagraph) 1 1 1 9
  [nd (NText (u "Text")) 1 1 1 4 []; nd (NFootnoteReference (u "1")) 1 5 1 8 []; nd (NText (u ".")) 1 9 1 9 []];
 nd (NFootnoteDefinition (u "1")) 3 1 3 141
  [nd (NParagraph) 3 7 3 141
   [nd (NText (u "This is a very long footnote definition that exceeds sixty characters and should be wrapped according to the custom line width setting.")) 3 7 3 141 []]]])
 [Within 60;
  Has (u "This is a very long footnote")] = true.
Proof. vm_compute. reflexivity. Qed.
