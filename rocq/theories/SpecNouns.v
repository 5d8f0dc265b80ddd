(** The nouns of directives (C65). *)
From Coq Require Import Bool Arith NArith String List.
From Verif Require Import Base OptsModel CodeModel AstModel StateModel SerModel SpecState SpecDoc.
Import ListNotations.

(** The same options with other nouns (src/config.rs:190-198). *)
Definition with_nouns (o : Options) (proper common : list str) : Options :=
  mkOptions (line_width o) (setext_h1 o) (setext_h2 o) (heading_sentence_case o) proper common
    (unordered_marker o) (leading_spaces o) (trailing_spaces o) (indent_width o) (odd_level_marker o) (even_level_marker o)
    (ordered_list_pad o) (ordered_list_indent_width o) (fence_char o) (min_fence_length o) (space_after_fence o)
    (default_language o) (thematic_break_style o) (thematic_break_leading_spaces o) (curly_double_quotes o)
    (curly_single_quotes o) (curly_apostrophes o) (ellipsis o) (en_dash o) (em_dash o) (code_formatters o).

(** The proper and the common nouns that directives have named so far. *)
Definition nouns : Type := (list str * list str)%type.
Definition named_after (ns : nouns) (d : directive) : nouns :=
  match d with ProperNouns l => (fst ns ++ l, snd ns) | CommonNouns l => (fst ns, snd ns ++ l) | _ => ns end.

Section Document.
Variable U : Uni.
Variable PN : list (str * str).
Variable ENT : str -> option str.
Variable o : Options.
Variable B : backend.
Variable checks : bool.
Variable src : list str.
Variable ends_nl : bool.

(** A heading formatted all by itself, with [ns] in the configuration. *)
Definition alone (ns : nouns) (n : node) (x : str) : Prop :=
  exists s, serialize_root U PN ENT (with_nouns o (heading_proper_nouns o ++ fst ns) (heading_common_nouns o ++ snd ns))
    B src ends_nl checks n = Ok s /\ output s = x.

(** As [document_text] (SpecDoc.v), and every heading that is formatted is what
    it is by itself with the nouns of the directives before it configured. *)
Inductive nouned : nouns -> str -> option node -> mode -> list node -> list str -> str -> Prop :=
| nd_end : forall ns out prev m hs fl sep,
    definitions U o checks fl ->
    (hs = [] -> sep = []) -> (hs <> [] -> separates (out ++ fl) sep) ->
    nouned ns out prev m [] hs (fl ++ sep ++ List.concat hs)
| nd_note : forall ns out prev m n cs hs t,
    note_definition n ->
    nouned ns out (Some n) m cs hs t ->
    nouned ns out prev m (n :: cs) hs t
| nd_trailing : forall ns out prev m n l cs hs t,
    trails n cs -> html_literal n l ->
    nouned ns out (Some n) m cs (hs ++ [l]) t ->
    nouned ns out prev m (n :: cs) hs t
| nd_disable_file : forall ns out prev m n l l' cs hs fl rest,
    directs n DisableFile -> html_literal n l -> end_core l l' ->
    definitions U o checks fl ->
    (skipn (end_line (node_pos n)) src = [] -> rest = []) ->
    (skipn (end_line (node_pos n)) src <> [] ->
       rest = [c_nl] ++ join [c_nl] (skipn (end_line (node_pos n)) src) ++ (if ends_nl then [c_nl] else [])) ->
    nouned ns out prev m (n :: cs) hs (fl ++ l' ++ rest)
| nd_directive : forall ns out prev m n d l cs hs fl t,
    directs n d -> d <> DisableFile -> html_literal n l ->
    definitions U o checks fl ->
    (d <> Disable -> d <> DisableNextLine -> d <> DisableNextSection -> fl = []) ->
    let chunk := fl ++ match prev with Some _ => [c_nl] | None => [] end ++ l in
    nouned (named_after ns d) (out ++ chunk) (Some n) (after_directive m d) cs hs t ->
    nouned ns out prev m (n :: cs) hs (chunk ++ t)
| nd_frozen : forall ns out prev m n cs hs fl x t,
    ordinary n cs -> frozen m n = true ->
    definitions U o checks fl ->
    (prev = None \/ (node_value n <> NHeading 2 /\ node_value n <> NHeading 3) -> fl = []) ->
    source_of src n x ->
    let chunk := fl ++ gap prev n ++ x ++ [c_nl] in
    nouned ns (out ++ chunk) (Some n) (after_block m n) cs hs t ->
    nouned ns out prev m (n :: cs) hs (chunk ++ t)
| nd_formatted : forall ns out prev m n cs hs fl x t,
    ordinary n cs -> (frozen m n = false \/ forall s, ~ spans (join [c_nl] src) (node_pos n) s) ->
    definitions U o checks fl ->
    (prev = None \/ (node_value n <> NHeading 2 /\ node_value n <> NHeading 3) -> fl = []) ->
    (forall l, node_value n = NHeading l -> alone ns n x) ->
    let chunk := fl ++ gap prev n ++ x in
    nouned ns (out ++ chunk) (Some n) (after_block m n) cs hs t ->
    nouned ns out prev m (n :: cs) hs (chunk ++ t).
End Document.

(** [named_in ns cs ns']: after [ns], with the directives among [cs] named, they
    are [ns']. *)
Inductive named_in : nouns -> list node -> nouns -> Prop :=
| ni_nil : forall ns, named_in ns [] ns
| ni_directive : forall ns n d cs ns', directs n d -> named_in (named_after ns d) cs ns' -> named_in ns (n :: cs) ns'
| ni_other : forall ns n cs ns', (forall d, ~ directs n d) -> named_in ns cs ns' -> named_in ns (n :: cs) ns'.
(** No block is a directive that switches formatting off. *)
Definition enabled (cs : list node) : Prop := forall n d, In n cs -> directs n d ->
  match d with Enable | ProperNouns _ | CommonNouns _ => True | _ => False end.
