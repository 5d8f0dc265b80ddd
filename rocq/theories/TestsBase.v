(** What the tests of src/serializer/tests.rs ask of a result, and the
    functions they call. *)
From Coq Require Import Bool Arith NArith Ascii String List.
From Verif Require Import Base OptsModel CodeModel AstModel StateModel SerModel NounsData.
Import ListNotations.

(** The Unicode data of the characters that occur in the tests. *)
Definition among (l : list N) (c : char) : bool := existsb (N.eqb c) l.
Definition mapped (l : list (N * str)) (c : char) : option str := option_map snd (find (fun p => N.eqb c (fst p)) l).
Definition wide (c : char) : bool := ((4352 <=? c) && (c <=? 4447) || (11904 <=? c) && (c <=? 42191) || (44032 <=? c) && (c <=? 55203) || (65281 <=? c) && (c <=? 65376))%N.
Definition latin (c : char) : bool := among [231; 233; 252]%N c.
Definition hangul (c : char) : bool := ((12352 <=? c) && (c <=? 40959) || (44032 <=? c) && (c <=? 55203))%N.
Definition uni_tests : Uni := {|
  u_alpha := fun c => ascii_is_alpha c || latin c || hangul c;
  u_alnum := fun c => is_ascii_alnum c || latin c || hangul c;
  u_upper := is_ascii_upper;
  u_lower_str := map ascii_lower;
  u_upper_chr := fun c => if latin c then [c - 32]%N else [ascii_upper c];
  u_width := fold_right (fun c n => (if wide c then 2 else 1) + n) 0
|}.
Definition entities (s : str) : option str :=
  option_map snd (find (fun p => seqb s (fst p)) [(u "amp", u "&"); (u "lt", u "<"); (u "gt", u ">"); (u "quot", [34%N]); (u "nbsp", [160%N]); (u "copy", [169%N]); (u "apos", u "'")]).

(** The options, one changed. *)
Definition with_line_width v (o : Options) : Options :=
  mkOptions v (setext_h1 o) (setext_h2 o) (heading_sentence_case o) (heading_proper_nouns o) (heading_common_nouns o) (unordered_marker o) (leading_spaces o) (trailing_spaces o) (indent_width o) (odd_level_marker o) (even_level_marker o) (ordered_list_pad o) (ordered_list_indent_width o) (fence_char o) (min_fence_length o) (space_after_fence o) (default_language o) (thematic_break_style o) (thematic_break_leading_spaces o) (curly_double_quotes o) (curly_single_quotes o) (curly_apostrophes o) (ellipsis o) (en_dash o) (em_dash o) (code_formatters o).
Definition with_setext_h1 v (o : Options) : Options :=
  mkOptions (line_width o) v (setext_h2 o) (heading_sentence_case o) (heading_proper_nouns o) (heading_common_nouns o) (unordered_marker o) (leading_spaces o) (trailing_spaces o) (indent_width o) (odd_level_marker o) (even_level_marker o) (ordered_list_pad o) (ordered_list_indent_width o) (fence_char o) (min_fence_length o) (space_after_fence o) (default_language o) (thematic_break_style o) (thematic_break_leading_spaces o) (curly_double_quotes o) (curly_single_quotes o) (curly_apostrophes o) (ellipsis o) (en_dash o) (em_dash o) (code_formatters o).
Definition with_setext_h2 v (o : Options) : Options :=
  mkOptions (line_width o) (setext_h1 o) v (heading_sentence_case o) (heading_proper_nouns o) (heading_common_nouns o) (unordered_marker o) (leading_spaces o) (trailing_spaces o) (indent_width o) (odd_level_marker o) (even_level_marker o) (ordered_list_pad o) (ordered_list_indent_width o) (fence_char o) (min_fence_length o) (space_after_fence o) (default_language o) (thematic_break_style o) (thematic_break_leading_spaces o) (curly_double_quotes o) (curly_single_quotes o) (curly_apostrophes o) (ellipsis o) (en_dash o) (em_dash o) (code_formatters o).
Definition with_heading_sentence_case v (o : Options) : Options :=
  mkOptions (line_width o) (setext_h1 o) (setext_h2 o) v (heading_proper_nouns o) (heading_common_nouns o) (unordered_marker o) (leading_spaces o) (trailing_spaces o) (indent_width o) (odd_level_marker o) (even_level_marker o) (ordered_list_pad o) (ordered_list_indent_width o) (fence_char o) (min_fence_length o) (space_after_fence o) (default_language o) (thematic_break_style o) (thematic_break_leading_spaces o) (curly_double_quotes o) (curly_single_quotes o) (curly_apostrophes o) (ellipsis o) (en_dash o) (em_dash o) (code_formatters o).
Definition with_heading_proper_nouns v (o : Options) : Options :=
  mkOptions (line_width o) (setext_h1 o) (setext_h2 o) (heading_sentence_case o) v (heading_common_nouns o) (unordered_marker o) (leading_spaces o) (trailing_spaces o) (indent_width o) (odd_level_marker o) (even_level_marker o) (ordered_list_pad o) (ordered_list_indent_width o) (fence_char o) (min_fence_length o) (space_after_fence o) (default_language o) (thematic_break_style o) (thematic_break_leading_spaces o) (curly_double_quotes o) (curly_single_quotes o) (curly_apostrophes o) (ellipsis o) (en_dash o) (em_dash o) (code_formatters o).
Definition with_unordered_marker v (o : Options) : Options :=
  mkOptions (line_width o) (setext_h1 o) (setext_h2 o) (heading_sentence_case o) (heading_proper_nouns o) (heading_common_nouns o) v (leading_spaces o) (trailing_spaces o) (indent_width o) (odd_level_marker o) (even_level_marker o) (ordered_list_pad o) (ordered_list_indent_width o) (fence_char o) (min_fence_length o) (space_after_fence o) (default_language o) (thematic_break_style o) (thematic_break_leading_spaces o) (curly_double_quotes o) (curly_single_quotes o) (curly_apostrophes o) (ellipsis o) (en_dash o) (em_dash o) (code_formatters o).
Definition with_leading_spaces v (o : Options) : Options :=
  mkOptions (line_width o) (setext_h1 o) (setext_h2 o) (heading_sentence_case o) (heading_proper_nouns o) (heading_common_nouns o) (unordered_marker o) v (trailing_spaces o) (indent_width o) (odd_level_marker o) (even_level_marker o) (ordered_list_pad o) (ordered_list_indent_width o) (fence_char o) (min_fence_length o) (space_after_fence o) (default_language o) (thematic_break_style o) (thematic_break_leading_spaces o) (curly_double_quotes o) (curly_single_quotes o) (curly_apostrophes o) (ellipsis o) (en_dash o) (em_dash o) (code_formatters o).
Definition with_trailing_spaces v (o : Options) : Options :=
  mkOptions (line_width o) (setext_h1 o) (setext_h2 o) (heading_sentence_case o) (heading_proper_nouns o) (heading_common_nouns o) (unordered_marker o) (leading_spaces o) v (indent_width o) (odd_level_marker o) (even_level_marker o) (ordered_list_pad o) (ordered_list_indent_width o) (fence_char o) (min_fence_length o) (space_after_fence o) (default_language o) (thematic_break_style o) (thematic_break_leading_spaces o) (curly_double_quotes o) (curly_single_quotes o) (curly_apostrophes o) (ellipsis o) (en_dash o) (em_dash o) (code_formatters o).
Definition with_indent_width v (o : Options) : Options :=
  mkOptions (line_width o) (setext_h1 o) (setext_h2 o) (heading_sentence_case o) (heading_proper_nouns o) (heading_common_nouns o) (unordered_marker o) (leading_spaces o) (trailing_spaces o) v (odd_level_marker o) (even_level_marker o) (ordered_list_pad o) (ordered_list_indent_width o) (fence_char o) (min_fence_length o) (space_after_fence o) (default_language o) (thematic_break_style o) (thematic_break_leading_spaces o) (curly_double_quotes o) (curly_single_quotes o) (curly_apostrophes o) (ellipsis o) (en_dash o) (em_dash o) (code_formatters o).
Definition with_odd_level_marker v (o : Options) : Options :=
  mkOptions (line_width o) (setext_h1 o) (setext_h2 o) (heading_sentence_case o) (heading_proper_nouns o) (heading_common_nouns o) (unordered_marker o) (leading_spaces o) (trailing_spaces o) (indent_width o) v (even_level_marker o) (ordered_list_pad o) (ordered_list_indent_width o) (fence_char o) (min_fence_length o) (space_after_fence o) (default_language o) (thematic_break_style o) (thematic_break_leading_spaces o) (curly_double_quotes o) (curly_single_quotes o) (curly_apostrophes o) (ellipsis o) (en_dash o) (em_dash o) (code_formatters o).
Definition with_even_level_marker v (o : Options) : Options :=
  mkOptions (line_width o) (setext_h1 o) (setext_h2 o) (heading_sentence_case o) (heading_proper_nouns o) (heading_common_nouns o) (unordered_marker o) (leading_spaces o) (trailing_spaces o) (indent_width o) (odd_level_marker o) v (ordered_list_pad o) (ordered_list_indent_width o) (fence_char o) (min_fence_length o) (space_after_fence o) (default_language o) (thematic_break_style o) (thematic_break_leading_spaces o) (curly_double_quotes o) (curly_single_quotes o) (curly_apostrophes o) (ellipsis o) (en_dash o) (em_dash o) (code_formatters o).
Definition with_ordered_list_indent_width v (o : Options) : Options :=
  mkOptions (line_width o) (setext_h1 o) (setext_h2 o) (heading_sentence_case o) (heading_proper_nouns o) (heading_common_nouns o) (unordered_marker o) (leading_spaces o) (trailing_spaces o) (indent_width o) (odd_level_marker o) (even_level_marker o) (ordered_list_pad o) v (fence_char o) (min_fence_length o) (space_after_fence o) (default_language o) (thematic_break_style o) (thematic_break_leading_spaces o) (curly_double_quotes o) (curly_single_quotes o) (curly_apostrophes o) (ellipsis o) (en_dash o) (em_dash o) (code_formatters o).
Definition with_fence_char v (o : Options) : Options :=
  mkOptions (line_width o) (setext_h1 o) (setext_h2 o) (heading_sentence_case o) (heading_proper_nouns o) (heading_common_nouns o) (unordered_marker o) (leading_spaces o) (trailing_spaces o) (indent_width o) (odd_level_marker o) (even_level_marker o) (ordered_list_pad o) (ordered_list_indent_width o) v (min_fence_length o) (space_after_fence o) (default_language o) (thematic_break_style o) (thematic_break_leading_spaces o) (curly_double_quotes o) (curly_single_quotes o) (curly_apostrophes o) (ellipsis o) (en_dash o) (em_dash o) (code_formatters o).
Definition with_min_fence_length v (o : Options) : Options :=
  mkOptions (line_width o) (setext_h1 o) (setext_h2 o) (heading_sentence_case o) (heading_proper_nouns o) (heading_common_nouns o) (unordered_marker o) (leading_spaces o) (trailing_spaces o) (indent_width o) (odd_level_marker o) (even_level_marker o) (ordered_list_pad o) (ordered_list_indent_width o) (fence_char o) v (space_after_fence o) (default_language o) (thematic_break_style o) (thematic_break_leading_spaces o) (curly_double_quotes o) (curly_single_quotes o) (curly_apostrophes o) (ellipsis o) (en_dash o) (em_dash o) (code_formatters o).
Definition with_space_after_fence v (o : Options) : Options :=
  mkOptions (line_width o) (setext_h1 o) (setext_h2 o) (heading_sentence_case o) (heading_proper_nouns o) (heading_common_nouns o) (unordered_marker o) (leading_spaces o) (trailing_spaces o) (indent_width o) (odd_level_marker o) (even_level_marker o) (ordered_list_pad o) (ordered_list_indent_width o) (fence_char o) (min_fence_length o) v (default_language o) (thematic_break_style o) (thematic_break_leading_spaces o) (curly_double_quotes o) (curly_single_quotes o) (curly_apostrophes o) (ellipsis o) (en_dash o) (em_dash o) (code_formatters o).
Definition with_default_language v (o : Options) : Options :=
  mkOptions (line_width o) (setext_h1 o) (setext_h2 o) (heading_sentence_case o) (heading_proper_nouns o) (heading_common_nouns o) (unordered_marker o) (leading_spaces o) (trailing_spaces o) (indent_width o) (odd_level_marker o) (even_level_marker o) (ordered_list_pad o) (ordered_list_indent_width o) (fence_char o) (min_fence_length o) (space_after_fence o) v (thematic_break_style o) (thematic_break_leading_spaces o) (curly_double_quotes o) (curly_single_quotes o) (curly_apostrophes o) (ellipsis o) (en_dash o) (em_dash o) (code_formatters o).
Definition with_thematic_break_style v (o : Options) : Options :=
  mkOptions (line_width o) (setext_h1 o) (setext_h2 o) (heading_sentence_case o) (heading_proper_nouns o) (heading_common_nouns o) (unordered_marker o) (leading_spaces o) (trailing_spaces o) (indent_width o) (odd_level_marker o) (even_level_marker o) (ordered_list_pad o) (ordered_list_indent_width o) (fence_char o) (min_fence_length o) (space_after_fence o) (default_language o) v (thematic_break_leading_spaces o) (curly_double_quotes o) (curly_single_quotes o) (curly_apostrophes o) (ellipsis o) (en_dash o) (em_dash o) (code_formatters o).
Definition with_thematic_break_leading_spaces v (o : Options) : Options :=
  mkOptions (line_width o) (setext_h1 o) (setext_h2 o) (heading_sentence_case o) (heading_proper_nouns o) (heading_common_nouns o) (unordered_marker o) (leading_spaces o) (trailing_spaces o) (indent_width o) (odd_level_marker o) (even_level_marker o) (ordered_list_pad o) (ordered_list_indent_width o) (fence_char o) (min_fence_length o) (space_after_fence o) (default_language o) (thematic_break_style o) v (curly_double_quotes o) (curly_single_quotes o) (curly_apostrophes o) (ellipsis o) (en_dash o) (em_dash o) (code_formatters o).
Definition with_curly_double_quotes v (o : Options) : Options :=
  mkOptions (line_width o) (setext_h1 o) (setext_h2 o) (heading_sentence_case o) (heading_proper_nouns o) (heading_common_nouns o) (unordered_marker o) (leading_spaces o) (trailing_spaces o) (indent_width o) (odd_level_marker o) (even_level_marker o) (ordered_list_pad o) (ordered_list_indent_width o) (fence_char o) (min_fence_length o) (space_after_fence o) (default_language o) (thematic_break_style o) (thematic_break_leading_spaces o) v (curly_single_quotes o) (curly_apostrophes o) (ellipsis o) (en_dash o) (em_dash o) (code_formatters o).
Definition with_curly_single_quotes v (o : Options) : Options :=
  mkOptions (line_width o) (setext_h1 o) (setext_h2 o) (heading_sentence_case o) (heading_proper_nouns o) (heading_common_nouns o) (unordered_marker o) (leading_spaces o) (trailing_spaces o) (indent_width o) (odd_level_marker o) (even_level_marker o) (ordered_list_pad o) (ordered_list_indent_width o) (fence_char o) (min_fence_length o) (space_after_fence o) (default_language o) (thematic_break_style o) (thematic_break_leading_spaces o) (curly_double_quotes o) v (curly_apostrophes o) (ellipsis o) (en_dash o) (em_dash o) (code_formatters o).
Definition with_curly_apostrophes v (o : Options) : Options :=
  mkOptions (line_width o) (setext_h1 o) (setext_h2 o) (heading_sentence_case o) (heading_proper_nouns o) (heading_common_nouns o) (unordered_marker o) (leading_spaces o) (trailing_spaces o) (indent_width o) (odd_level_marker o) (even_level_marker o) (ordered_list_pad o) (ordered_list_indent_width o) (fence_char o) (min_fence_length o) (space_after_fence o) (default_language o) (thematic_break_style o) (thematic_break_leading_spaces o) (curly_double_quotes o) (curly_single_quotes o) v (ellipsis o) (en_dash o) (em_dash o) (code_formatters o).
Definition with_ellipsis v (o : Options) : Options :=
  mkOptions (line_width o) (setext_h1 o) (setext_h2 o) (heading_sentence_case o) (heading_proper_nouns o) (heading_common_nouns o) (unordered_marker o) (leading_spaces o) (trailing_spaces o) (indent_width o) (odd_level_marker o) (even_level_marker o) (ordered_list_pad o) (ordered_list_indent_width o) (fence_char o) (min_fence_length o) (space_after_fence o) (default_language o) (thematic_break_style o) (thematic_break_leading_spaces o) (curly_double_quotes o) (curly_single_quotes o) (curly_apostrophes o) v (en_dash o) (em_dash o) (code_formatters o).
Definition with_en_dash v (o : Options) : Options :=
  mkOptions (line_width o) (setext_h1 o) (setext_h2 o) (heading_sentence_case o) (heading_proper_nouns o) (heading_common_nouns o) (unordered_marker o) (leading_spaces o) (trailing_spaces o) (indent_width o) (odd_level_marker o) (even_level_marker o) (ordered_list_pad o) (ordered_list_indent_width o) (fence_char o) (min_fence_length o) (space_after_fence o) (default_language o) (thematic_break_style o) (thematic_break_leading_spaces o) (curly_double_quotes o) (curly_single_quotes o) (curly_apostrophes o) (ellipsis o) v (em_dash o) (code_formatters o).
Definition with_em_dash v (o : Options) : Options :=
  mkOptions (line_width o) (setext_h1 o) (setext_h2 o) (heading_sentence_case o) (heading_proper_nouns o) (heading_common_nouns o) (unordered_marker o) (leading_spaces o) (trailing_spaces o) (indent_width o) (odd_level_marker o) (even_level_marker o) (ordered_list_pad o) (ordered_list_indent_width o) (fence_char o) (min_fence_length o) (space_after_fence o) (default_language o) (thematic_break_style o) (thematic_break_leading_spaces o) (curly_double_quotes o) (curly_single_quotes o) (curly_apostrophes o) (ellipsis o) (en_dash o) v (code_formatters o).
Definition with_code_formatters v (o : Options) : Options :=
  mkOptions (line_width o) (setext_h1 o) (setext_h2 o) (heading_sentence_case o) (heading_proper_nouns o) (heading_common_nouns o) (unordered_marker o) (leading_spaces o) (trailing_spaces o) (indent_width o) (odd_level_marker o) (even_level_marker o) (ordered_list_pad o) (ordered_list_indent_width o) (fence_char o) (min_fence_length o) (space_after_fence o) (default_language o) (thematic_break_style o) (thematic_break_leading_spaces o) (curly_double_quotes o) (curly_single_quotes o) (curly_apostrophes o) (ellipsis o) (en_dash o) (em_dash o) v.

Inductive check :=
| Is (s : str) | Has (s : str) | Starts (s : str) | Ends (s : str) | Before (a b : str) | Blank
| LineIs (i : nat) (s : str) | LineHas (i : nat) (s : str) | LineStarts (i : nat) (s : str) | LineEnds (i : nat) (s : str) | LineCount (n : nat)
| LineBefore (a b : str) | Count (n : nat) (s : str) | Within (n : nat) | NoLineEnds (s : str)
| Warned (n : nat) | WarnHas (i : nat) (s : str) | WarnLine (i n : nat)
| Not (c : check) | AnyOf (l : list check) | AllOf (l : list check).
Fixpoint index_of (p s : str) : option nat :=
  if starts_with p s then Some 0 else match s with [] => None | _ :: r => option_map S (index_of p r) end.
Definition found (p s : str) : bool := match index_of p s with Some _ => true | None => false end.
Fixpoint first_line (p : str) (ls : list str) : option nat :=
  match ls with [] => None | l :: r => if found p l then Some 0 else option_map S (first_line p r) end.
(** Occurrences that do not overlap (the patterns used do not overlap themselves). *)
Fixpoint occurrences (p s : str) : nat :=
  match s with [] => 0 | _ :: r => (if starts_with p s then 1 else 0) + occurrences p r end.
Definition bytes (s : str) : nat := fold_right (fun c n => (if (c <? 128)%N then 1 else if (c <? 2048)%N then 2 else if (c <? 65536)%N then 3 else 4) + n) 0 s.
Fixpoint passes (out : str) (ws : list warning) (c : check) : bool :=
  match c with
  | Is s => seqb out s
  | Has s => found s out
  | Starts s => starts_with s out
  | Ends s => ends_with s out
  | Before a b => match index_of a out, index_of b out with Some i, Some j => i <? j | _, _ => false end
  | Blank => forallb is_ws out
  | LineIs i s => match nth_error (lines out) i with Some l => seqb l s | None => false end
  | LineHas i s => match nth_error (lines out) i with Some l => found s l | None => false end
  | LineStarts i s => match nth_error (lines out) i with Some l => starts_with s l | None => false end
  | LineEnds i s => match nth_error (lines out) i with Some l => ends_with s l | None => false end
  | LineCount n => List.length (lines out) =? n
  | LineBefore a b => match first_line a (lines out), first_line b (lines out) with Some i, Some j => i <? j | _, _ => false end
  | Count n s => occurrences s out =? n
  | Within n => forallb (fun l => bytes l <=? n) (lines out)
  | NoLineEnds s => forallb (fun l => negb (ends_with s l)) (lines out)
  | Warned n => List.length ws =? n
  | WarnHas i s => match nth_error ws i with Some w => found s (warn_message w) | None => false end
  | WarnLine i n => match nth_error ws i with Some w => warn_line w =? n | None => false end
  | Not c => negb (passes out ws c)
  | AnyOf l => existsb (passes out ws) l
  | AllOf l => forallb (passes out ws) l
  end.

Definition nd (v : value) (a b c d : nat) (cs : list node) : node := Node v (mkPos a b c d) cs.
(** The programs tests.rs:3757-3992 configure as formatters. *)
Definition programs (k : nat) (command : list str) (code : str) (timeout : N) : str + FormatterError :=
  match command with
  | name :: _ =>
      if seqb name (u "cat") then inl code
      else if seqb name (u "tr") then inl (map ascii_upper code)
      else if seqb name (u "false") then inr (NonZeroExit (Some (u "1")) [])
      else inr TimeoutErr
  | [] => inr EmptyCommand
  end.
Definition result_of (o : Options) (src : list str) (ends_nl : bool) (n : node) : res st :=
  serialize_root uni_tests PROPER_NOUNS entities o (Native programs) src ends_nl true n.
Definition ok (r : res st) (l : list check) : bool :=
  match r with Ok s => forallb (passes (output s) (warnings s)) l | Panic => false end.
(** tests.rs:16-29: without the source. *)
Definition run (o : Options) (n : node) (l : list check) : bool := ok (result_of o [] false n) l.
(** tests.rs:31-46: with it. *)
Definition run_source (input : str) (o : Options) (n : node) (l : list check) : bool :=
  ok (result_of o (lines input) (ends_with_newline input) n) l.
