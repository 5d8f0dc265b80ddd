(** What formatters of code return (C61). *)
From Coq Require Import Bool Arith NArith String List.
From Verif Require Import Base OptsModel CodeModel AstModel SpecContext SpecCode.
Import ListNotations.

(** The options with other commands for languages. *)
Definition with_formatters (o : Options) (fs : list (str * CodeFormatter)) : Options :=
  mkOptions (line_width o) (setext_h1 o) (setext_h2 o) (heading_sentence_case o) (heading_proper_nouns o)
    (heading_common_nouns o) (unordered_marker o) (leading_spaces o) (trailing_spaces o) (indent_width o)
    (odd_level_marker o) (even_level_marker o) (ordered_list_pad o) (ordered_list_indent_width o)
    (fence_char o) (min_fence_length o) (space_after_fence o) (default_language o) (thematic_break_style o)
    (thematic_break_leading_spaces o) (curly_double_quotes o) (curly_single_quotes o) (curly_apostrophes o)
    (ellipsis o) (en_dash o) (em_dash o) fs.

(** The code that stands for [code] in the end, the [i]th time a formatter is
    asked: what the command bound to the language, or the callback, returns;
    [code] itself if there is none, or it fails or declines. *)
Definition answer (fs : list (str * CodeFormatter)) (B : backend) (i : nat) (language code : str) : str :=
  match B with
  | Native run =>
      match assoc_str language fs with
      | Some f => match run i (cf_command f) code (cf_timeout f) with inl x => x | inr _ => code end
      | None => code
      end
  | Wasm (Some cb) => match cb i language code with Some x => x | None => code end
  | Wasm None => code
  end.

(** The language in which a formatter is asked about a block with this info
    string: the first word, or the default language; none if
    [hongdown-no-format] is among the words. *)
Definition asked_as (o : Options) (info language : str) : Prop :=
  language <> [] /\ ~ marked_no_format info /\ language = block_language o info.

(** For the blocks of code in [n], whenever they are asked, the formatters [fs]
    in [B'] return what those of [o] return in [B]. *)
Definition returns_same (o : Options) (B : backend) (fs : list (str * CodeFormatter)) (B' : backend) (n : node) : Prop :=
  forall info code q cs language i j, within (Node (NCodeBlock info code) q cs) n -> asked_as o info language ->
    answer fs B' j language code = answer (code_formatters o) B i language code.

(** Warnings about the document: those that name a line. *)
Definition about_document (ws : list warning) : list warning := filter (fun w => negb (warn_line w =? 0)) ws.
