(** The unit tests of src/serializer/heading.rs (60 of 61) and
    src/serializer/punctuation.rs (43 of 47), run on the model.  They check the
    transcription, not the properties. *)
From Coq Require Import Bool Arith NArith String List.
From Verif Require Import Base OptsModel PunctModel HeadingModel NounsData TestsBase.
Import ListNotations.

(** ** heading.rs *)
Definition title (user common : list str) (s : str) : str := to_sentence_case uni_tests PROPER_NOUNS user common s.
Example heading_test_basic_sentence_case :
  [title [] [] (u "Hello World")]
  = [u "Hello world"].
Proof. vm_compute. reflexivity. Qed.
Example heading_test_all_lowercase :
  [title [] [] (u "hello world")]
  = [u "Hello world"].
Proof. vm_compute. reflexivity. Qed.
Example heading_test_multiple_words :
  [title [] [] (u "Development Commands")]
  = [u "Development commands"].
Proof. vm_compute. reflexivity. Qed.
Example heading_test_preserve_code_spans :
  [title [] [] (u "Using `MyAPI` Components")]
  = [u "Using `MyAPI` components"].
Proof. vm_compute. reflexivity. Qed.
Example heading_test_preserve_acronyms :
  [title [] [] (u "Using API Endpoints");
   title [] [] (u "HTTP And HTTPS")]
  = [u "Using API endpoints";
     u "HTTP and HTTPS"].
Proof. vm_compute. reflexivity. Qed.
Example heading_test_preserve_acronyms_with_periods :
  [title [] [] (u "U.S.A. And U.K.");
   title [] [] (u "R.O.K. Development");
   title [] [] (u "P.R.C. And R.O.C.");
   title [] [] (u "Using U.S. Military")]
  = [u "U.S.A. and U.K.";
     u "R.O.K. development";
     u "P.R.C. and R.O.C.";
     u "Using U.S. military"].
Proof. vm_compute. reflexivity. Qed.
Example heading_test_preserve_academic_titles_with_periods :
  [title [] [] (u "Ph.D. Programs");
   title [] [] (u "M.D. And Ph.D.");
   title [] [] (u "B.A. Degree")]
  = [u "Ph.D. programs";
     u "M.D. and Ph.D.";
     u "B.A. degree"].
Proof. vm_compute. reflexivity. Qed.
Example heading_test_lowercase_latin_abbreviations_preserved :
  [title [] [] (u "Using e.g. And i.e. In Text");
   title [] [] (u "Examples e.g. Foo");
   title [] [] (u "That Is i.e. This");
   title [] [] (u "See cf. Section 3");
   title [] [] (u "And etc. At End")]
  = [u "Using e.g. and i.e. in text";
     u "Examples e.g. foo";
     u "That is i.e. this";
     u "See cf. section 3";
     u "And etc. at end"].
Proof. vm_compute. reflexivity. Qed.
Example heading_test_preserve_acronyms_with_suffix :
  [title [] [] (u "Working With APIs")]
  = [u "Working with APIs"].
Proof. vm_compute. reflexivity. Qed.
Example heading_test_hyphenated_acronyms :
  [title [] [] (u "Working With JSON-RPC")]
  = [u "Working with JSON-RPC"].
Proof. vm_compute. reflexivity. Qed.
Example heading_test_user_proper_nouns :
  [title [u "Hongdown"] [] (u "Introduction To Hongdown")]
  = [u "Introduction to Hongdown"].
Proof. vm_compute. reflexivity. Qed.
Example heading_test_builtin_proper_nouns :
  [title [] [] (u "Working With JavaScript")]
  = [u "Working with JavaScript"].
Proof. vm_compute. reflexivity. Qed.
Example heading_test_proper_noun_case_insensitive :
  [title [] [] (u "Using Github Actions")]
  = [u "Using GitHub Actions"].
Proof. vm_compute. reflexivity. Qed.
Example heading_test_hyphenated_with_proper_noun :
  [title [u "React"] [] (u "React-based Application")]
  = [u "React-based application"].
Proof. vm_compute. reflexivity. Qed.
Example heading_test_quoted_text_uppercase_first :
  [title [] [] (u "Smart Suggestion: ""Did You Mean?""")]
  = [u "Smart suggestion: “Did you mean?”"].
Proof. vm_compute. reflexivity. Qed.
Example heading_test_quoted_text_lowercase_first :
  [title [] [] (u "Smart Suggestion: ""did you mean?""")]
  = [u "Smart suggestion: “did you mean?”"].
Proof. vm_compute. reflexivity. Qed.
Example heading_test_curly_quotes :
  [title [] [] (u "Message: “Hello World”")]
  = [u "Message: “Hello world”"].
Proof. vm_compute. reflexivity. Qed.
Example heading_test_single_quotes :
  [title [] [] (u "User Says 'Hello World'")]
  = [u "User says ‘Hello world’"].
Proof. vm_compute. reflexivity. Qed.
Example heading_test_single_quotes_lowercase_first :
  [title [] [] (u "User Says 'hello world'")]
  = [u "User says ‘hello world’"].
Proof. vm_compute. reflexivity. Qed.
Example heading_test_nested_quotes :
  [title [] [] (u "Message: ""He Said 'Hello World'""")]
  = [u "Message: “He said ‘Hello world’”"].
Proof. vm_compute. reflexivity. Qed.
Example heading_test_non_latin_scripts :
  [title [] [] (u "한글 제목 With English")]
  = [u "한글 제목 with English"].
Proof. vm_compute. reflexivity. Qed.
Example heading_test_all_caps_word_preserved :
  [title [] [] (u "IMPORTANT Notice")]
  = [u "IMPORTANT notice"].
Proof. vm_compute. reflexivity. Qed.
Example heading_test_all_caps_proper_noun :
  [title [] [] (u "Working With JAVASCRIPT")]
  = [u "Working with JAVASCRIPT"].
Proof. vm_compute. reflexivity. Qed.
Example heading_test_empty_string :
  [title [] [] ([])]
  = [[]].
Proof. vm_compute. reflexivity. Qed.
Example heading_test_single_word :
  [title [] [] (u "Hello")]
  = [u "Hello"].
Proof. vm_compute. reflexivity. Qed.
Example heading_test_code_span_with_quotes :
  [title [] [] (u "Using `""MyAPI""`: ""The Best API""")]
  = [u "Using `""MyAPI""`: “The best API”"].
Proof. vm_compute. reflexivity. Qed.
Example heading_test_unclosed_quotes :
  [title [] [] (u "Error: ""Something Went Wrong")]
  = [u "Error: “something went wrong"].
Proof. vm_compute. reflexivity. Qed.
Example heading_test_json_rpc_protocol :
  [title [] [] (u "JSON-RPC Protocol")]
  = [u "JSON-RPC protocol"].
Proof. vm_compute. reflexivity. Qed.
Example heading_test_mixed_case_not_acronym :
  [title [] [] (u "Working With Api")]
  = [u "Working with api"].
Proof. vm_compute. reflexivity. Qed.
Example heading_test_common_nouns_exclude_builtin :
  [title [] [] (u "Using Python Now");
   title [] [u "Python"] (u "Using Python Now")]
  = [u "Using Python now";
     u "Using python now"].
Proof. vm_compute. reflexivity. Qed.
Example heading_test_common_nouns_case_insensitive :
  [title [] [u "javascript"] (u "Using JavaScript Programming")]
  = [u "Using javascript programming"].
Proof. vm_compute. reflexivity. Qed.
Example heading_test_common_nouns_with_proper_nouns :
  [title [u "MyAPI"] [u "Python"] (u "Using Python With MyAPI")]
  = [u "Using python with MyAPI"].
Proof. vm_compute. reflexivity. Qed.
Example heading_test_common_nouns_multiple :
  [title [] [u "JavaScript"; u "Python"] (u "Learning JavaScript And Python")]
  = [u "Learning javascript and python"].
Proof. vm_compute. reflexivity. Qed.
Example heading_test_apostrophe_not_quote :
  [title [] [] (u "Let's Code With JavaScript");
   title [] [] (u "It's Working Now");
   title [] [] (u "Don't Use This");
   title [] [] (u "Let's Code In JavaScript And Diggin' It");
   title [] [] (u "We're Goin' To The Store");
   title [] [] (u "Music From The '80s And '90s")]
  = [u "Let's code with JavaScript";
     u "It's working now";
     u "Don't use this";
     u "Let's code in JavaScript and diggin' it";
     u "We're goin' to the store";
     u "Music from the '80s and '90s"].
Proof. vm_compute. reflexivity. Qed.
Example heading_test_apostrophe_vs_single_quotes :
  [title [] [] (u "User Says 'Hello World'");
   title [] [] (u "It's In The 'Quick Start' Guide")]
  = [u "User says ‘Hello world’";
     u "It's in the ‘Quick start’ guide"].
Proof. vm_compute. reflexivity. Qed.
Example heading_test_multiword_proper_noun_github_actions :
  [title [] [] (u "Using GitHub Actions For CI/CD")]
  = [u "Using GitHub Actions for CI/CD"].
Proof. vm_compute. reflexivity. Qed.
Example heading_test_multiword_proper_noun_github_pages :
  [title [] [] (u "Deploying To GitHub Pages")]
  = [u "Deploying to GitHub Pages"].
Proof. vm_compute. reflexivity. Qed.
Example heading_test_multiword_proper_noun_codeberg_pages :
  [title [] [] (u "Hosting On Codeberg Pages")]
  = [u "Hosting on Codeberg Pages"].
Proof. vm_compute. reflexivity. Qed.
Example heading_test_multiword_proper_noun_at_beginning :
  [title [] [] (u "GitHub Actions For CI/CD")]
  = [u "GitHub Actions for CI/CD"].
Proof. vm_compute. reflexivity. Qed.
Example heading_test_multiword_proper_noun_case_insensitive :
  [title [] [] (u "Using github actions For CI")]
  = [u "Using GitHub Actions for CI"].
Proof. vm_compute. reflexivity. Qed.
Example heading_test_multiword_proper_noun_with_common_nouns :
  [title [] [u "GitHub Actions"; u "GitHub"] (u "Using GitHub Actions For CI")]
  = [u "Using github actions for CI"].
Proof. vm_compute. reflexivity. Qed.
Example heading_test_multiword_proper_noun_user_defined :
  [title [u "My Cool Project"] [] (u "Working With My Cool Project")]
  = [u "Working with My Cool Project"].
Proof. vm_compute. reflexivity. Qed.
Example heading_test_multiword_proper_noun_multiple_instances :
  [title [] [] (u "GitHub Actions And GitHub Pages Integration")]
  = [u "GitHub Actions and GitHub Pages integration"].
Proof. vm_compute. reflexivity. Qed.
Example heading_test_multiword_proper_noun_with_punctuation :
  [title [] [] (u "Using GitHub Actions: A Tutorial")]
  = [u "Using GitHub Actions: A tutorial"].
Proof. vm_compute. reflexivity. Qed.
Example heading_test_single_word_github_preserved :
  [title [] [] (u "Using GitHub For Development")]
  = [u "Using GitHub for development"].
Proof. vm_compute. reflexivity. Qed.
Example heading_test_multiword_proper_noun_partial_match_not_replaced :
  [title [] [] (u "MyGitHub Actions Service")]
  = [u "Mygithub actions service"].
Proof. vm_compute. reflexivity. Qed.
Example heading_test_natural_language_names_preserved :
  [title [] [] (u "Learning Korean And Japanese");
   title [] [] (u "Translating From English To French");
   title [] [] (u "Guide To Vietnamese And Thai")]
  = [u "Learning Korean and Japanese";
     u "Translating from English to French";
     u "Guide to Vietnamese and Thai"].
Proof. vm_compute. reflexivity. Qed.
Example heading_test_country_names_preserved :
  [title [] [] (u "Traveling Through Japan And Korea");
   title [] [] (u "From United States To Canada");
   title [] [] (u "Visiting France");
   title [] [] (u "Visiting Germany");
   title [] [] (u "Visiting Italy");
   title [] [] (u "Visiting France, Germany, And Italy")]
  = [u "Traveling through Japan and Korea";
     u "From United States to Canada";
     u "Visiting France";
     u "Visiting Germany";
     u "Visiting Italy";
     u "Visiting France, Germany, and Italy"].
Proof. vm_compute. reflexivity. Qed.
Example heading_test_multiword_country_names :
  [title [] [] (u "New Zealand Travel Guide");
   title [] [] (u "South Korea And North Korea");
   title [] [] (u "United Kingdom History")]
  = [u "New Zealand travel guide";
     u "South Korea and North Korea";
     u "United Kingdom history"].
Proof. vm_compute. reflexivity. Qed.
Example heading_test_special_regions :
  [title [] [] (u "Hong Kong Travel Guide");
   title [] [] (u "Visiting Macau And Hong Kong");
   title [] [] (u "Puerto Rico History")]
  = [u "Hong Kong travel guide";
     u "Visiting Macau and Hong Kong";
     u "Puerto Rico history"].
Proof. vm_compute. reflexivity. Qed.
Example heading_test_full_country_names_and_abbreviations :
  [title [] [] (u "United States Of America History");
   title [] [] (u "Federal Republic Of Germany");
   title [] [] (u "Russian Federation Development");
   title [] [] (u "USA And UK Relations");
   title [] [] (u "ROK And DPRK Summit")]
  = [u "United States of America history";
     u "Federal Republic of Germany";
     u "Russian Federation development";
     u "USA and UK relations";
     u "ROK and DPRK summit"].
Proof. vm_compute. reflexivity. Qed.
Example heading_test_slash_separated_words :
  [title [] [] (u "Coding With JavaScript/TypeScript");
   title [] [] (u "Using Python/Ruby/Perl");
   title [] [] (u "Learning HTML/CSS/JavaScript");
   title [u "Swift"; u "Go"] [] (u "Using Swift/Go")]
  = [u "Coding with JavaScript/TypeScript";
     u "Using Python/Ruby/Perl";
     u "Learning HTML/CSS/JavaScript";
     u "Using Swift/Go"].
Proof. vm_compute. reflexivity. Qed.
Example heading_test_continents_and_regions :
  [title [] [] (u "Traveling Through Europe And Asia");
   title [] [] (u "Exploring Africa And South America");
   title [] [] (u "European And Asian Cultures");
   title [] [] (u "African And American History");
   title [] [] (u "East Asian Languages");
   title [] [] (u "Southeast Asian Cuisine");
   title [] [] (u "Western European Countries");
   title [] [] (u "Middle Eastern Politics");
   title [] [] (u "Latin American Music")]
  = [u "Traveling through Europe and Asia";
     u "Exploring Africa and South America";
     u "European and Asian cultures";
     u "African and American history";
     u "East Asian languages";
     u "Southeast Asian cuisine";
     u "Western European countries";
     u "Middle Eastern politics";
     u "Latin American music"].
Proof. vm_compute. reflexivity. Qed.
Example heading_test_punctuation_with_capitalization :
  [title [] [] (u "Part 1: Food");
   title [] [] (u "Part 1: food");
   title [] [] (u "Part 1: East Asia");
   title [] [] (u "Chapter 2: JavaScript Basics");
   title [] [] (u "Note; This Is Important");
   title [] [] (u "Warning; Python Required");
   title [] [] (u "Introduction—A Brief Overview");
   title [] [] (u "Section 1—Europe And Asia")]
  = [u "Part 1: Food";
     u "Part 1: food";
     u "Part 1: East Asia";
     u "Chapter 2: JavaScript basics";
     u "Note; This is important";
     u "Warning; Python required";
     u "Introduction—A brief overview";
     u "Section 1—Europe and Asia"].
Proof. vm_compute. reflexivity. Qed.
Example heading_test_possessive_proper_nouns :
  [title [u "Hong Minhee"] [] (u "Hong Minhee's Markdown Style Convention");
   title [] [] (u "GitHub's Documentation System");
   title [] [] (u "Python's Features And JavaScript's Benefits")]
  = [u "Hong Minhee's Markdown style convention";
     u "GitHub's documentation system";
     u "Python's features and JavaScript's benefits"].
Proof. vm_compute. reflexivity. Qed.
Example heading_test_slash_containing_user_proper_noun :
  [title [u "@foo/javascript"] [] (u "Using @foo/javascript Package");
   title [u "@foo/bar"; u "@baz/qux"] [] (u "Using @foo/bar And @baz/qux")]
  = [u "Using @foo/javascript package";
     u "Using @foo/bar and @baz/qux"].
Proof. vm_compute. reflexivity. Qed.
Example heading_test_hyphen_containing_user_proper_noun :
  [title [u "my-custom-lib"] [] (u "Using my-custom-lib Package")]
  = [u "Using my-custom-lib package"].
Proof. vm_compute. reflexivity. Qed.
Example heading_test_slash_proper_noun_not_matching_splits :
  [title [] [] (u "Using @foo/javascript Package")]
  = [u "Using @foo/JavaScript package"].
Proof. vm_compute. reflexivity. Qed.
Example heading_test_hyphen_proper_noun_not_matching_splits :
  [title [] [] (u "Using foo-javascript Package")]
  = [u "Using foo-JavaScript package"].
Proof. vm_compute. reflexivity. Qed.
Example heading_test_first_person_pronoun_i_always_capitalized :
  [title [] [] (u "Because I'm Happy");
   title [] [] (u "Why I've Been Here");
   title [] [] (u "What I'll Do Next");
   title [] [] (u "How I'd Feel About It");
   title [] [] (u "What I Think About This");
   title [] [] (u "Here I Am");
   title [] [] (u "Something–I Think So");
   title [] [] (u "Note: I Believe This");
   title [] [] (u "I'm Happy Today");
   title [] [] (u "I Think Therefore I Am")]
  = [u "Because I'm happy";
     u "Why I've been here";
     u "What I'll do next";
     u "How I'd feel about it";
     u "What I think about this";
     u "Here I am";
     u "Something–I think so";
     u "Note: I believe this";
     u "I'm happy today";
     u "I think therefore I am"].
Proof. vm_compute. reflexivity. Qed.

(** ** punctuation.rs *)
Definition options_with (d s a e : bool) (en em : DashSetting) : Options :=
  let o := default_options in
  mkOptions (line_width o) (setext_h1 o) (setext_h2 o) (heading_sentence_case o) (heading_proper_nouns o)
    (heading_common_nouns o) (unordered_marker o) (leading_spaces o) (trailing_spaces o) (indent_width o)
    (odd_level_marker o) (even_level_marker o) (ordered_list_pad o) (ordered_list_indent_width o)
    (fence_char o) (min_fence_length o) (space_after_fence o) (default_language o) (thematic_break_style o)
    (thematic_break_leading_spaces o) d s a e en em (code_formatters o).
Definition punctuate (o : Options) (s : str) : str := transform_punctuation uni_tests o s.
Example default_punctuation : default_options = options_with true true false true DDisabled (DPattern (u "--")).
Proof. vm_compute. reflexivity. Qed.
Example punctuation_test_ellipsis_basic :
  [punctuate (options_with true true false true (DDisabled) (DPattern (u "--"))) (u "Wait...")]
  = [u "Wait…"].
Proof. vm_compute. reflexivity. Qed.
Example punctuation_test_ellipsis_four_dots :
  [punctuate (options_with true true false true (DDisabled) (DPattern (u "--"))) (u "Wait....")]
  = [u "Wait…."].
Proof. vm_compute. reflexivity. Qed.
Example punctuation_test_ellipsis_multiple :
  [punctuate (options_with true true false true (DDisabled) (DPattern (u "--"))) (u "Wait... and... more...")]
  = [u "Wait… and… more…"].
Proof. vm_compute. reflexivity. Qed.
Example punctuation_test_ellipsis_disabled :
  [punctuate (options_with true true false false (DDisabled) (DPattern (u "--"))) (u "Wait...")]
  = [u "Wait..."].
Proof. vm_compute. reflexivity. Qed.
Example punctuation_test_ellipsis_preserve_existing :
  [punctuate (options_with true true false true (DDisabled) (DPattern (u "--"))) (u "Already has…")]
  = [u "Already has…"].
Proof. vm_compute. reflexivity. Qed.
Example punctuation_test_curly_double_quotes_basic :
  [punctuate (options_with true true false true (DDisabled) (DPattern (u "--"))) (u "He said ""hello"" to her.")]
  = [u "He said “hello” to her."].
Proof. vm_compute. reflexivity. Qed.
Example punctuation_test_curly_double_quotes_multiple_pairs :
  [punctuate (options_with true true false true (DDisabled) (DPattern (u "--"))) (u """Hello"" and ""world""")]
  = [u "“Hello” and “world”"].
Proof. vm_compute. reflexivity. Qed.
Example punctuation_test_curly_double_quotes_at_start :
  [punctuate (options_with true true false true (DDisabled) (DPattern (u "--"))) (u """Hello world""")]
  = [u "“Hello world”"].
Proof. vm_compute. reflexivity. Qed.
Example punctuation_test_curly_double_quotes_after_paren :
  [punctuate (options_with true true false true (DDisabled) (DPattern (u "--"))) (u "(""quoted"")")]
  = [u "(“quoted”)"].
Proof. vm_compute. reflexivity. Qed.
Example punctuation_test_curly_double_quotes_disabled :
  [punctuate (options_with false true false true (DDisabled) (DPattern (u "--"))) (u "He said ""hello"" to her.")]
  = [u "He said ""hello"" to her."].
Proof. vm_compute. reflexivity. Qed.
Example punctuation_test_curly_double_quotes_preserve_existing :
  [punctuate (options_with true true false true (DDisabled) (DPattern (u "--"))) (u "Already has “curly”")]
  = [u "Already has “curly”"].
Proof. vm_compute. reflexivity. Qed.
Example punctuation_test_curly_single_quotes_basic :
  [punctuate (options_with true true false true (DDisabled) (DPattern (u "--"))) (u "She said 'hello' to him.")]
  = [u "She said ‘hello’ to him."].
Proof. vm_compute. reflexivity. Qed.
Example punctuation_test_curly_single_quotes_disabled :
  [punctuate (options_with true false false true (DDisabled) (DPattern (u "--"))) (u "She said 'hello' to him.")]
  = [u "She said 'hello' to him."].
Proof. vm_compute. reflexivity. Qed.
Example punctuation_test_curly_single_quotes_preserve_existing :
  [punctuate (options_with true true false true (DDisabled) (DPattern (u "--"))) (u "Already has ‘curly’")]
  = [u "Already has ‘curly’"].
Proof. vm_compute. reflexivity. Qed.
Example punctuation_test_curly_apostrophes_disabled_by_default :
  [punctuate (options_with true true false true (DDisabled) (DPattern (u "--"))) (u "it's a test")]
  = [u "it's a test"].
Proof. vm_compute. reflexivity. Qed.
Example punctuation_test_leading_apostrophe_s_stays_straight :
  [punctuate (options_with true true false true (DDisabled) (DPattern (u "--"))) (u "'s API")]
  = [u "'s API"].
Proof. vm_compute. reflexivity. Qed.
Example punctuation_test_leading_apostrophe_s_curly_when_enabled :
  [punctuate (options_with true true true true (DDisabled) (DPattern (u "--"))) (u "'s API")]
  = [u "’s API"].
Proof. vm_compute. reflexivity. Qed.
Example punctuation_test_curly_apostrophes_enabled :
  [punctuate (options_with true true true true (DDisabled) (DPattern (u "--"))) (u "it's a test")]
  = [u "it’s a test"].
Proof. vm_compute. reflexivity. Qed.
Example punctuation_test_apostrophe_in_contraction :
  [punctuate (options_with true true true true (DDisabled) (DPattern (u "--"))) (u "don't do it")]
  = [u "don’t do it"].
Proof. vm_compute. reflexivity. Qed.
Example punctuation_test_apostrophe_decade_abbreviation :
  [punctuate (options_with true true false true (DDisabled) (DPattern (u "--"))) (u "the '80s were great")]
  = [u "the ’80s were great"].
Proof. vm_compute. reflexivity. Qed.
Example punctuation_test_word_final_apostrophe_disabled_by_default :
  [punctuate (options_with true true false true (DDisabled) (DPattern (u "--"))) (u "we're goin' to the store")]
  = [u "we're goin' to the store"].
Proof. vm_compute. reflexivity. Qed.
Example punctuation_test_word_final_apostrophe_enabled :
  [punctuate (options_with true true true true (DDisabled) (DPattern (u "--"))) (u "we're goin' to the store")]
  = [u "we’re goin’ to the store"].
Proof. vm_compute. reflexivity. Qed.
Example punctuation_test_possessive_apostrophe_disabled_by_default :
  [punctuate (options_with true true false true (DDisabled) (DPattern (u "--"))) (u "GitHub's API is great")]
  = [u "GitHub's API is great"].
Proof. vm_compute. reflexivity. Qed.
Example punctuation_test_possessive_apostrophe_enabled :
  [punctuate (options_with true true true true (DDisabled) (DPattern (u "--"))) (u "GitHub's API is great")]
  = [u "GitHub’s API is great"].
Proof. vm_compute. reflexivity. Qed.
Example punctuation_test_single_quotes_and_apostrophe_mixed :
  [punctuate (options_with true true false true (DDisabled) (DPattern (u "--"))) (u "She said 'it's fine' to him")]
  = [u "She said ‘it's fine’ to him"].
Proof. vm_compute. reflexivity. Qed.
Example punctuation_test_single_quotes_and_apostrophe_mixed_all_curly :
  [punctuate (options_with true true true true (DDisabled) (DPattern (u "--"))) (u "She said 'it's fine' to him")]
  = [u "She said ‘it’s fine’ to him"].
Proof. vm_compute. reflexivity. Qed.
Example punctuation_test_curly_apostrophes_only_no_single_quotes :
  [punctuate (options_with true false true true (DDisabled) (DPattern (u "--"))) (u "She said 'it's fine' to him")]
  = [u "She said 'it’s fine' to him"].
Proof. vm_compute. reflexivity. Qed.
Example punctuation_test_curly_single_quotes_only_no_apostrophes :
  [punctuate (options_with true true false true (DDisabled) (DPattern (u "--"))) (u "She said 'it's fine' to him")]
  = [u "She said ‘it's fine’ to him"].
Proof. vm_compute. reflexivity. Qed.
Example punctuation_test_multiple_word_final_apostrophes :
  [punctuate (options_with true true true true (DDisabled) (DPattern (u "--"))) (u "We're goin' and they're comin' too")]
  = [u "We’re goin’ and they’re comin’ too"].
Proof. vm_compute. reflexivity. Qed.
Example punctuation_test_apostrophe_at_end_of_sentence :
  [punctuate (options_with true true true true (DDisabled) (DPattern (u "--"))) (u "That's John's.")]
  = [u "That’s John’s."].
Proof. vm_compute. reflexivity. Qed.
Example punctuation_test_decade_with_curly_single_quotes_disabled :
  [punctuate (options_with true false false true (DDisabled) (DPattern (u "--"))) (u "the '80s and '90s")]
  = [u "the '80s and '90s"].
Proof. vm_compute. reflexivity. Qed.
Example punctuation_test_decade_with_curly_single_quotes_enabled :
  [punctuate (options_with true true false true (DDisabled) (DPattern (u "--"))) (u "music from the '80s")]
  = [u "music from the ’80s"].
Proof. vm_compute. reflexivity. Qed.
Example punctuation_test_bracket_possessive_apostrophe_stays_straight :
  [punctuate (options_with true true false true (DDisabled) (DPattern (u "--"))) (u "[Fedify]'s API");
   punctuate (options_with true true false true (DDisabled) (DPattern (u "--"))) (u "(something)'s value");
   punctuate (options_with true true false true (DDisabled) (DPattern (u "--"))) (u "{item}'s property")]
  = [u "[Fedify]'s API";
     u "(something)'s value";
     u "{item}'s property"].
Proof. vm_compute. reflexivity. Qed.
Example punctuation_test_bracket_possessive_apostrophe_curly_when_enabled :
  [punctuate (options_with true true true true (DDisabled) (DPattern (u "--"))) (u "[Fedify]'s API")]
  = [u "[Fedify]’s API"].
Proof. vm_compute. reflexivity. Qed.
Example punctuation_test_em_dash_default_double_hyphen :
  [punctuate (options_with true true false true (DDisabled) (DPattern (u "--"))) (u "Hello--world")]
  = [u "Hello—world"].
Proof. vm_compute. reflexivity. Qed.
Example punctuation_test_em_dash_triple_hyphen :
  [punctuate (options_with true true false true (DDisabled) (DPattern (u "---"))) (u "Hello---world")]
  = [u "Hello—world"].
Proof. vm_compute. reflexivity. Qed.
Example punctuation_test_em_dash_single_hyphen_with_spaces :
  [punctuate (options_with true true false true (DDisabled) (DPattern (u "-"))) (u "word - word")]
  = [u "word — word"].
Proof. vm_compute. reflexivity. Qed.
Example punctuation_test_em_dash_single_hyphen_without_spaces_no_change :
  [punctuate (options_with true true false true (DDisabled) (DPattern (u "-"))) (u "word-word")]
  = [u "word-word"].
Proof. vm_compute. reflexivity. Qed.
Example punctuation_test_em_dash_disabled :
  [punctuate (options_with true true false true (DDisabled) (DDisabled)) (u "Hello--world")]
  = [u "Hello--world"].
Proof. vm_compute. reflexivity. Qed.
Example punctuation_test_en_dash_disabled_by_default :
  [punctuate (options_with true true false true (DDisabled) (DPattern (u "--"))) (u "pages 10-20")]
  = [u "pages 10-20"].
Proof. vm_compute. reflexivity. Qed.
Example punctuation_test_en_dash_enabled :
  [punctuate (options_with true true false true (DPattern (u "--")) (DPattern (u "---"))) (u "pages 10--20")]
  = [u "pages 10–20"].
Proof. vm_compute. reflexivity. Qed.
Example punctuation_test_en_and_em_dash_different_patterns :
  [punctuate (options_with true true false true (DPattern (u "--")) (DPattern (u "---"))) (u "em---dash and en--dash")]
  = [u "em—dash and en–dash"].
Proof. vm_compute. reflexivity. Qed.
Example punctuation_test_all_punctuation_transforms_disabled :
  [punctuate (options_with false false false false (DDisabled) (DDisabled)) (u "He said ""It's... amazing--isn't it?"" she replied 'yes'")]
  = [u "He said ""It's... amazing--isn't it?"" she replied 'yes'"].
Proof. vm_compute. reflexivity. Qed.
