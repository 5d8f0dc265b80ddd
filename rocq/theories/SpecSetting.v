(** What a single setting is about (C63).  Independent of how anything is
    written. *)
From Coq Require Import Bool Arith NArith String List.
From Verif Require Import Base OptsModel AstModel SpecContext.
Import ListNotations.

(** Settings that are about something smaller than a construct
    (README.md:181-253): the underlining of headings of each level, the
    capitals of headings and the words kept in them, the language of code that
    names none, and each kind of punctuation. *)
Inductive setting :=
| FirstHeadings | SecondHeadings | SentenceCase | ProperNouns | CommonNouns | Language
| DoubleQuotes | SingleQuotes | Apostrophes | Ellipses | EnDashes | EmDashes.

(** The options are the same but for the settings in [P]. *)
Record same_but (P : setting -> Prop) (a b : Options) : Prop := {
  sb_width : line_width a = line_width b;
  sb_h1 : P FirstHeadings \/ setext_h1 a = setext_h1 b;
  sb_h2 : P SecondHeadings \/ setext_h2 a = setext_h2 b;
  sb_case : P SentenceCase \/ heading_sentence_case a = heading_sentence_case b;
  sb_proper : P ProperNouns \/ heading_proper_nouns a = heading_proper_nouns b;
  sb_common : P CommonNouns \/ heading_common_nouns a = heading_common_nouns b;
  sb_marker : unordered_marker a = unordered_marker b;
  sb_leading : leading_spaces a = leading_spaces b;
  sb_trailing : trailing_spaces a = trailing_spaces b;
  sb_indent : indent_width a = indent_width b;
  sb_odd : odd_level_marker a = odd_level_marker b;
  sb_even : even_level_marker a = even_level_marker b;
  sb_oindent : ordered_list_indent_width a = ordered_list_indent_width b;
  sb_pad : ordered_list_pad a = ordered_list_pad b;
  sb_fence : fence_char a = fence_char b;
  sb_min : min_fence_length a = min_fence_length b;
  sb_space : space_after_fence a = space_after_fence b;
  sb_lang : P Language \/ default_language a = default_language b;
  sb_formatters : code_formatters a = code_formatters b;
  sb_style : thematic_break_style a = thematic_break_style b;
  sb_spaces : thematic_break_leading_spaces a = thematic_break_leading_spaces b;
  sb_double : P DoubleQuotes \/ curly_double_quotes a = curly_double_quotes b;
  sb_single : P SingleQuotes \/ curly_single_quotes a = curly_single_quotes b;
  sb_apostrophes : P Apostrophes \/ curly_apostrophes a = curly_apostrophes b;
  sb_ellipsis : P Ellipses \/ ellipsis a = ellipsis b;
  sb_en : P EnDashes \/ en_dash a = en_dash b;
  sb_em : P EmDashes \/ em_dash a = em_dash b
}.

(** [w] stands somewhere in [t]. *)
Definition occurs (w t : str) : Prop := exists x y, t = x ++ w ++ y.
(** [w] stands in no text of the tree. *)
Definition in_no_text (w : str) (n : node) : Prop :=
  forall m t, within m n -> node_value m = NText t -> ~ occurs w t.
Definition no_heading (n : node) : Prop := forall m l, within m n -> node_value m <> NHeading l.

(** Nothing in the tree is what the setting is about, under the options [o].
    Dashes of either kind are made first, long ones before short ones, so what
    is written for a short one must not hold a long one. *)
Definition idle (x : setting) (o : Options) (n : node) : Prop :=
  match x with
  | FirstHeadings => forall m, within m n -> node_value m <> NHeading 1
  | SecondHeadings => forall m, within m n -> node_value m <> NHeading 2
  | SentenceCase => no_heading n
  | ProperNouns | CommonNouns => heading_sentence_case o = false \/ no_heading n
  | Language => forall m i l, within m n -> node_value m = NCodeBlock i l -> exists c, In c i /\ is_ws c = false
  | DoubleQuotes => in_no_text [34%N] n
  | SingleQuotes | Apostrophes => in_no_text [39%N] n
  | Ellipses => in_no_text (lit "...") n
  | EnDashes => forall p, en_dash o = DPattern p -> ~ In 8212%N p /\ in_no_text p n
  | EmDashes => forall p, em_dash o = DPattern p -> in_no_text p n
  end.
