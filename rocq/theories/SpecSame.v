(** Code and the punctuation settings (C39). *)
From Coq Require Import Bool Arith NArith String List.
From Verif Require Import Base OptsModel AstModel StateModel SerModel SpecContext.
Import ListNotations.

(** Two option sets that differ only in their punctuation settings. *)
Definition differ_in_punctuation (o p : Options) : Prop :=
  line_width o = line_width p /\ setext_h1 o = setext_h1 p /\ setext_h2 o = setext_h2 p
  /\ heading_sentence_case o = heading_sentence_case p
  /\ heading_proper_nouns o = heading_proper_nouns p /\ heading_common_nouns o = heading_common_nouns p
  /\ unordered_marker o = unordered_marker p /\ leading_spaces o = leading_spaces p
  /\ trailing_spaces o = trailing_spaces p /\ indent_width o = indent_width p
  /\ odd_level_marker o = odd_level_marker p /\ even_level_marker o = even_level_marker p
  /\ ordered_list_pad o = ordered_list_pad p /\ ordered_list_indent_width o = ordered_list_indent_width p
  /\ fence_char o = fence_char p /\ min_fence_length o = min_fence_length p
  /\ space_after_fence o = space_after_fence p /\ default_language o = default_language p
  /\ thematic_break_style o = thematic_break_style p
  /\ thematic_break_leading_spaces o = thematic_break_leading_spaces p
  /\ code_formatters o = code_formatters p.

(** The code written, in order. *)
Fixpoint codes (l : list event) : list str :=
  match l with
  | [] => []
  | Code x :: r => x :: codes r
  | _ :: r => codes r
  end.

(** The texts of [l] stand in [x], one after the other. *)
Inductive laced : list str -> str -> Prop :=
| laced_none : forall g, laced [] g
| laced_one : forall g c l r, laced l r -> laced (c :: l) (g ++ c ++ r).

(** What the layout may put into code or take from it: white space (line
    breaks, indentation), and where the document has block quotes the quote
    mark, where it has tables the backslash before a pipe. *)
Definition layout_mark (quotes tables : bool) (c : char) : bool :=
  is_ws c || N.eqb c 0 || (quotes && N.eqb c 62) || (tables && N.eqb c 92).
Definition bare (mark : char -> bool) (s : str) : str := filter (fun c => negb (mark c)) s.
(** The text [x] holds the code [l], in order, up to layout marks. *)
Definition carries (quotes tables : bool) (l : list str) (x : str) : Prop :=
  laced (map (bare (layout_mark quotes tables)) l) (bare (layout_mark quotes tables) x).

(** What is in a tree. *)
Definition has_quotes (n : node) : Prop := exists m, within m n /\ (node_value m = NBlockQuote \/ exists a, node_value m = NAlert a).
Definition has_tables (n : node) : Prop := exists m a, within m n /\ node_value m = NTable a.
Definition has_notes (n : node) : Prop := exists m name, within m n /\ node_value m = NFootnoteDefinition name.

(** The code spans of a tree, in order (the kinds in the second line are leaves). *)
Fixpoint code_spans (n : node) : list (sourcepos * str) :=
  match n with
  | Node (NCode literal) p _ => [(p, literal)]
  | Node (NText _ | NSoftBreak | NLineBreak | NHtmlInline _ | NFootnoteReference _) _ _ => []
  | Node _ _ cs => flat_map code_spans cs
  end.
(** [x] is a code span as a paragraph writes it: what the source has there, or
    the literal between backticks with the padding it needs. *)
Inductive span_written (src : list str) : sourcepos * str -> str -> Prop :=
| written_source : forall p literal x, extract_source src p = Ok (Some x) -> span_written src (p, literal) x
| written_literal : forall p literal n pad, pad = [] \/ pad = [c_sp] ->
    span_written src (p, literal) (repeat c_bt n ++ pad ++ literal ++ pad ++ repeat c_bt n).
(** [l] is [m] with some members left out. *)
Inductive picked {A} : list A -> list A -> Prop :=
| picked_nil : picked [] []
| picked_keep : forall x l m, picked l m -> picked (x :: l) (x :: m)
| picked_drop : forall x l m, picked l m -> picked l (x :: m).
(** No link and no image. *)
Definition unlinked (n : node) : Prop :=
  forall m, within m n -> (forall u t, node_value m <> NLink u t) /\ (forall u t, node_value m <> NImage u t).
