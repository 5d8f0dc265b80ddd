(** What the line width governs (C59).  Independent of how anything is written. *)
From Coq Require Import Bool Arith NArith String List.
From Verif Require Import Base OptsModel AstModel InlineModel SpecContext SpecWrap.
Import ListNotations.

(** The options with another line width. *)
Definition with_width (o : Options) (w : nat) : Options :=
  mkOptions w (setext_h1 o) (setext_h2 o) (heading_sentence_case o) (heading_proper_nouns o)
    (heading_common_nouns o) (unordered_marker o) (leading_spaces o) (trailing_spaces o) (indent_width o)
    (odd_level_marker o) (even_level_marker o) (ordered_list_pad o) (ordered_list_indent_width o)
    (fence_char o) (min_fence_length o) (space_after_fence o) (default_language o) (thematic_break_style o)
    (thematic_break_leading_spaces o) (curly_double_quotes o) (curly_single_quotes o) (curly_apostrophes o)
    (ellipsis o) (en_dash o) (em_dash o) (code_formatters o).

(** The characters of a text that are not white space; where the document has
    quotes, without the marks at the beginning of their lines (and any other
    greater-than signs). *)
Definition ink (quotes : bool) (s : str) : str :=
  filter (fun c => negb (is_ws c || N.eqb c 0 || (quotes && N.eqb c 62))) s.

(** The words of a text; where the document has quotes, greater-than signs
    count as white space. *)
Definition words_of (quotes : bool) (s : str) : list str :=
  split_whitespace (map (fun c => if quotes && N.eqb c 62 then c_sp else c) s).
(** A paragraph as parsers leave it: between hard breaks, source lines that are
    neither blank nor surrounded by white space. *)
Definition flowing (x : str) : Prop := Forall (fun s => Forall trimmed (soft_lines s)) (segments x).

Section Speaks.
Variable U : Uni.
Variable ENT : str -> option str.
Variable o : Options.
Variable src : list str.
(** Every paragraph says something. *)
Definition speaks (n : node) : Prop := forall m x evs, within m n -> node_value m = NParagraph ->
  inline_content U ENT o src m = Ok (x, evs) -> nonws x <> [].
(** Every paragraph is as parsers leave it. *)
Definition flows (n : node) : Prop := forall m x evs, within m n -> node_value m = NParagraph ->
  inline_content U ENT o src m = Ok (x, evs) -> flowing x.
End Speaks.
