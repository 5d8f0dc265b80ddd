(** What the sections of a configuration govern (C54, C55).  Independent of how
    anything is written. *)
From Coq Require Import Bool Arith NArith String List.
From Verif Require Import Base OptsModel AstModel SpecContext.
Import ListNotations.

(** The settings that belong to one construct (README.md:215-253): sections of
    the configuration, and the setting [pad] of ordered lists. *)
Inductive section := Headings | BulletLists | OrderedLists | Pad | CodeBlocks | Rules.

(** The options are the same outside the section. *)
Record only_in (sec : section) (a b : Options) : Prop := {
  oi_width : line_width a = line_width b;
  oi_h1 : sec <> Headings -> setext_h1 a = setext_h1 b;
  oi_h2 : sec <> Headings -> setext_h2 a = setext_h2 b;
  oi_case : sec <> Headings -> heading_sentence_case a = heading_sentence_case b;
  oi_proper : sec <> Headings -> heading_proper_nouns a = heading_proper_nouns b;
  oi_common : sec <> Headings -> heading_common_nouns a = heading_common_nouns b;
  oi_marker : sec <> BulletLists -> unordered_marker a = unordered_marker b;
  oi_leading : sec <> BulletLists -> leading_spaces a = leading_spaces b;
  oi_trailing : sec <> BulletLists -> trailing_spaces a = trailing_spaces b;
  oi_indent : sec <> BulletLists -> indent_width a = indent_width b;
  oi_odd : sec <> OrderedLists -> odd_level_marker a = odd_level_marker b;
  oi_even : sec <> OrderedLists -> even_level_marker a = even_level_marker b;
  oi_oindent : sec <> OrderedLists -> ordered_list_indent_width a = ordered_list_indent_width b;
  oi_pad : sec <> Pad -> sec <> OrderedLists -> ordered_list_pad a = ordered_list_pad b;
  oi_fence : sec <> CodeBlocks -> fence_char a = fence_char b;
  oi_min : sec <> CodeBlocks -> min_fence_length a = min_fence_length b;
  oi_space : sec <> CodeBlocks -> space_after_fence a = space_after_fence b;
  oi_lang : sec <> CodeBlocks -> default_language a = default_language b;
  oi_formatters : sec <> CodeBlocks -> code_formatters a = code_formatters b;
  oi_style : sec <> Rules -> thematic_break_style a = thematic_break_style b;
  oi_spaces : sec <> Rules -> thematic_break_leading_spaces a = thematic_break_leading_spaces b;
  oi_double : curly_double_quotes a = curly_double_quotes b;
  oi_single : curly_single_quotes a = curly_single_quotes b;
  oi_apostrophes : curly_apostrophes a = curly_apostrophes b;
  oi_ellipsis : ellipsis a = ellipsis b;
  oi_en : en_dash a = en_dash b;
  oi_em : em_dash a = em_dash b
}.

(** The constructs a section is about.  The padding of numbers matters where
    the numbers of a list have different lengths, which is left to C54. *)
Definition governed (sec : section) (v : value) : Prop :=
  match sec with
  | Headings => exists l, v = NHeading l
  | BulletLists => exists t, v = NList Bullet t
  | OrderedLists => exists t, v = NList Ordered t
  | Pad => False
  | CodeBlocks => exists i l, v = NCodeBlock i l
  | Rules => v = NThematicBreak
  end.
Definition without (sec : section) (n : node) : Prop := forall m, within m n -> ~ governed sec (node_value m).

(** No list stands in the details of a description list, and no details stand
    in a list. *)
Definition details_apart (n : node) : Prop := forall m l kind tight,
  within m n -> node_value m = NDescriptionDetails -> within l n -> node_value l = NList kind tight -> ~ within l m /\ ~ within m l.

(** Numbers of one list: the column behind the digits, counted from the
    beginning of the line, after the spaces before them. *)
Fixpoint leading (p : char -> bool) (l : str) : nat * str :=
  match l with [] => (0, []) | c :: r => if p c then let (n, t) := leading p r in (Datatypes.S n, t) else (0, l) end.
Definition number_end (l : str) : nat :=
  let (spaces, l) := leading (N.eqb c_sp) l in
  let (digits, _) := leading (fun c => N.leb 48 c && N.leb c 57) l in spaces + digits.
(** [pad = "start"]: the numbers end in one column (config.rs:468-471). *)
Definition right_aligned (ls : list str) : Prop := forall x y, In x ls -> In y ls -> number_end x = number_end y.
