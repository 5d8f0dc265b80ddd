(** Model of the option types: src/lib.rs (Options) and the newtypes of
    src/config.rs. *)
From Coq Require Import Bool Arith NArith List String.
From Verif Require Import Base.
Import ListNotations.

(** [Result<T, String>]; the error text is not modelled. *)
Inductive result (A : Type) := Rok (a : A) | Rerr.
Arguments Rok {A}. Arguments Rerr {A}.

(** src/config.rs:213-237 [UnorderedMarker] *)
Inductive UnorderedMarker := UHyphen | UAsterisk | UPlus.
Definition unordered_marker_char (m : UnorderedMarker) : char :=
  match m with UHyphen => c_dash | UAsterisk => c_star | UPlus => c_plus end.

(** src/config.rs:444-464 [OrderedMarker] *)
Inductive OrderedMarker := OPeriod | OParenthesis.
Definition ordered_marker_char (m : OrderedMarker) : char :=
  match m with OPeriod => c_dot | OParenthesis => c_rpar end.

(** src/config.rs:466-475 [OrderedListPad] *)
Inductive OrderedListPad := PadStart | PadEnd.

(** src/config.rs:558-578 [FenceChar] *)
Inductive FenceChar := FTilde | FBacktick.
Definition fence_char_char (f : FenceChar) : char :=
  match f with FTilde => c_tilde | FBacktick => c_bt end.

(** src/config.rs:832-839 [DashSetting]; a [DashPattern] is its string. *)
Inductive DashSetting := DDisabled | DPattern (p : str).

(** src/lib.rs:31-38 [CodeFormatter] *)
Record CodeFormatter := mkCodeFormatter { cf_command : list str; cf_timeout : N }.

(** src/lib.rs:42-148 [Options].  Newtypes are represented by their content;
    the constructors below decide which contents exist.  [code_formatters]
    (a HashMap) is an association list; lookups take the first binding. *)
Record Options := mkOptions {
  line_width : nat;
  setext_h1 : bool;
  setext_h2 : bool;
  heading_sentence_case : bool;
  heading_proper_nouns : list str;
  heading_common_nouns : list str;
  unordered_marker : UnorderedMarker;
  leading_spaces : nat;
  trailing_spaces : nat;
  indent_width : nat;
  odd_level_marker : OrderedMarker;
  even_level_marker : OrderedMarker;
  ordered_list_pad : OrderedListPad;
  ordered_list_indent_width : nat;
  fence_char : FenceChar;
  min_fence_length : nat;
  space_after_fence : bool;
  default_language : str;
  thematic_break_style : str;
  thematic_break_leading_spaces : nat;
  curly_double_quotes : bool;
  curly_single_quotes : bool;
  curly_apostrophes : bool;
  ellipsis : bool;
  en_dash : DashSetting;
  em_dash : DashSetting;
  code_formatters : list (str * CodeFormatter)
}.

(** src/config.rs:250-260 [LeadingSpaces::new] *)
Definition leading_spaces_new (v : nat) : result nat := if 3 <? v then Rerr else Rok v.
(** src/config.rs:295-305 [TrailingSpaces::new] *)
Definition trailing_spaces_new (v : nat) : result nat := if 3 <? v then Rerr else Rok v.
(** src/config.rs:340-350 [IndentWidth::new] *)
Definition indent_width_new (v : nat) : result nat := if v <? 1 then Rerr else Rok v.
(** src/config.rs:388-398 [LineWidth::new] *)
Definition line_width_new (v : nat) : result nat := if v <? 8 then Rerr else Rok v.
(** src/config.rs:591-601 [MinFenceLength::new] *)
Definition min_fence_length_new (v : nat) : result nat := if v <? 3 then Rerr else Rok v.

(** src/config.rs:798-812 [DashPattern::new] *)
Definition dash_pattern_new (p : str) : result str :=
  if is_nil p then Rerr
  else if existsb (fun c => negb (is_ascii_graphic c)) p then Rerr
  else Rok p.

(** src/config.rs:688-711: the counting loop of [ThematicBreakStyle::new];
    [None] when another character is met ([has_other]). *)
Fixpoint tb_count (a h u : nat) (s : str) : option (nat * nat * nat) :=
  match s with
  | [] => Some (a, h, u)
  | c :: r =>
      if ceq c c_star then tb_count (S a) h u r
      else if ceq c c_dash then tb_count a (S h) u r
      else if ceq c c_us then tb_count a h (S u) r
      else if ceq c c_sp || ceq c c_tab then tb_count a h u r
      else None
  end.
(** src/config.rs:677-742 [ThematicBreakStyle::new] *)
Definition thematic_break_style_new (style : str) : result str :=
  let trimmed := trim style in
  if is_nil trimmed then Rerr else
  match tb_count 0 0 0 trimmed with
  | None => Rerr
  | Some (a, h, u) =>
      let valid_markers := filter (fun n => 3 <=? n) [a; h; u] in
      if is_nil valid_markers then Rerr
      else if 1 <? List.length valid_markers then Rerr
      else Rok style
  end.

(** src/config.rs:750-756: the default thematic break style, 37 dashes
    separated by single spaces. *)
Definition default_thematic_break_style : str :=
  lit "- - - - - - - - - - - - - - - - - - - - - - - - - - - - - - - - - - - - -".

(** src/lib.rs:150-182 [Options::default] *)
Definition default_options : Options := {|
  line_width := 80;
  setext_h1 := true;
  setext_h2 := true;
  heading_sentence_case := false;
  heading_proper_nouns := [];
  heading_common_nouns := [];
  unordered_marker := UHyphen;
  leading_spaces := 1;
  trailing_spaces := 2;
  indent_width := 4;
  odd_level_marker := OPeriod;
  even_level_marker := OParenthesis;
  ordered_list_pad := PadStart;
  ordered_list_indent_width := 4;
  fence_char := FTilde;
  min_fence_length := 4;
  space_after_fence := true;
  default_language := [];
  thematic_break_style := default_thematic_break_style;
  thematic_break_leading_spaces := 3;
  curly_double_quotes := true;
  curly_single_quotes := true;
  curly_apostrophes := false;
  ellipsis := true;
  en_dash := DDisabled;
  em_dash := DPattern (lit "--");
  code_formatters := []
|}.

(** src/serializer/punctuation.rs:59-70 [validate_dash_settings] *)
Definition validate_dash_settings (o : Options) : result unit :=
  match en_dash o, em_dash o with
  | DPattern en, DPattern em => if seqb en em then Rerr else Rok tt
  | _, _ => Rok tt
  end.
