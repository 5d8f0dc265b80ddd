(** No white space at the ends of lines (C58). *)
From Coq Require Import Bool Arith NArith String List.
From Verif Require Import Base OptsModel CodeModel HeadingModel AstModel StateModel InlineModel SpecCode SpecWrap SpecState SpecSafe SpecEnd SpecDoc.
Import ListNotations.

(** A text that ends in white space, but not in a newline. *)
Definition dangles (a : str) : Prop := exists x c, a = x ++ [c] /\ is_ws c = true /\ c <> c_nl.
(** It ends in the two spaces of a hard line break. *)
Definition hard_end (a : str) : Prop := exists x c, a = x ++ [c; c_sp; c_sp] /\ is_ws c = false.
(** No line of the text ends in white space; [hard]: except for hard line
    breaks. *)
Definition neat (hard : bool) (t : str) : Prop :=
  forall a b, t = a ++ c_nl :: b -> ~ dangles a \/ hard = true /\ hard_end a.

Definition one_line (s : str) : Prop := ~ In c_nl s.
(** The text of a paragraph: between hard breaks it begins and ends with
    something visible, and no line of it is blank. *)
Definition edged (s : str) : Prop := (exists c r, s = c :: r /\ dark c) /\ exists r c, s = r ++ [c] /\ dark c.
Definition full_text (x : str) : Prop :=
  Forall (fun s => edged s /\ Forall (fun l => ~ blank l) (soft_lines s)) (segments x).
(** A definition that ends in something visible. *)
Record full_reference (r : reference) : Prop := {
  fr_label : one_line (ref_label r);
  fr_title : one_line (ref_title r);
  fr_url : one_line (ref_url r) /\ exists x c, ref_url r = x ++ [c] /\ is_ws c = false
}.
Definition full_uses (evs : list inline_event) : Prop := forall r, In (EvUse r) evs -> full_reference r.

Section Trail.
Variable U : Uni.
Variable PN : list (str * str).
Variable ENT : str -> option str.
Variable o : Options.
Variable B : backend.
Variable src : list str.
Variable hard : bool.

(** A heading, whatever nouns directives have added. *)
Definition shown_title (n : node) (t : str) : Prop :=
  exists text evs proper common, collect_text U ENT o src n = Ok (text, evs)
    /\ t = if heading_sentence_case o
           then to_sentence_case U PN (heading_proper_nouns o ++ proper) (heading_common_nouns o ++ common) text else text.
Definition full_line (t : str) : Prop := one_line t /\ exists x c, t = x ++ [c] /\ is_ws c = false.
(** The code of a block, whatever formatters make of it. *)
Definition neat_code (info literal : str) : Prop :=
  one_line (block_info o info) /\ ~ dangles (block_info o info)
  /\ forall k content calls failed, settles o B k info literal content calls failed ->
       Forall (fun l => ~ dangles l) (lines content).
(** No line of it is empty. *)
Definition unbroken_code (n : node) : Prop :=
  forall info literal, node_value n = NCodeBlock info literal ->
  forall k content calls failed, settles o B k info literal content calls failed -> Forall (fun l => l <> []) (lines content).
(** Blocks that are not written on the line of the marker. *)
Definition below_marker (n : node) : Prop :=
  match node_value n with NList _ _ | NCodeBlock _ _ | NBlockQuote | NAlert _ => True | _ => False end.

(** Blocks that bring no white space to the ends of lines.  [q]: they may be in
    a quote. *)
Inductive neat_block (q : bool) : node -> Prop :=
| nb_para : forall p cs, unabbreviated src p ->
    (forall x evs, inline_content U ENT o src (Node NParagraph p cs) = Ok (x, evs) ->
       full_text x /\ (hard = false -> one_line x) /\ full_uses evs) ->
    neat_block q (Node NParagraph p cs)
| nb_head : forall level p cs,
    (forall t, shown_title (Node (NHeading level) p cs) t -> full_line t) ->
    (forall x evs, collect_text U ENT o src (Node (NHeading level) p cs) = Ok (x, evs) -> full_uses evs) ->
    neat_block q (Node (NHeading level) p cs)
| nb_code : forall info literal p cs, neat_code info literal -> neat_block q (Node (NCodeBlock info literal) p cs)
| nb_rule : forall p cs, full_line (thematic_break_style o) -> neat_block q (Node NThematicBreak p cs)
| nb_html : forall l p cs, neat hard l -> ~ dangles l -> (exists c r, l = c :: r /\ c <> c_nl) -> neat_block q (Node (NHtmlBlock l) p cs)
| nb_quote : forall p cs, cs <> [] -> Forall (neat_block true) cs -> neat_block q (Node NBlockQuote p cs)
| nb_alert : forall a p cs, Forall (neat_block true) cs -> neat_block q (Node (NAlert a) p cs)
| nb_list : forall kind tight p cs, cs <> [] -> Forall (neat_item q) cs -> neat_block q (Node (NList kind tight) p cs)
| nb_table : forall aligns p rows, rows <> [] ->
    Forall (fun row => Forall (fun c => forall x evs, inline_content U ENT o src c = Ok (x, evs) -> one_line x /\ full_uses evs) (node_children row)) rows ->
    neat_block q (Node (NTable aligns) p rows)
| nb_describe : forall p cs, cs <> [] -> Forall (neat_entry q) cs -> neat_block q (Node NDescriptionList p cs)
(** An item begins on the line of its marker.  In a quote its code has no blank
    lines. *)
with neat_item (q : bool) : node -> Prop :=
| ni_item : forall v p c cs, list_entry v -> ~ below_marker c -> Forall (neat_block q) (c :: cs) ->
    (q = true -> Forall unbroken_code cs) -> neat_item q (Node v p (c :: cs))
with neat_entry (q : bool) : node -> Prop :=
| ne_entry : forall p t ts ds, ts <> [] -> Forall (neat_block q) ts -> Forall (neat_details q) ds ->
    neat_entry q (Node NDescriptionItem p (Node NDescriptionTerm t ts :: ds))
(** Details do not begin with code. *)
with neat_details (q : bool) : node -> Prop :=
| nd_details : forall p c cs, (forall info literal, node_value c <> NCodeBlock info literal) -> Forall (neat_block q) (c :: cs) ->
    neat_details q (Node NDescriptionDetails p (c :: cs)).

(** A footnote: words, or blocks. *)
Inductive neat_note : node -> Prop :=
| nn_words : forall name p cs, plain_note (Node (NFootnoteDefinition name) p cs) -> one_line name ->
    (forall x evs, wcat (with_next (collect_inline U ENT o src) cs) = Ok (x, evs) -> (exists c, In c x /\ dark c) /\ full_uses evs) ->
    neat_note (Node (NFootnoteDefinition name) p cs)
| nn_blocks : forall name p cs, ~ plain_note (Node (NFootnoteDefinition name) p cs) -> one_line name -> Forall (neat_block false) cs ->
    neat_note (Node (NFootnoteDefinition name) p cs).
(** A block of the document, a footnote, front matter, or a directive that does
    not switch formatting off. *)
Inductive neat_child : node -> Prop :=
| nc_block : forall n, neat_block false n -> (forall d, directs n d -> formats d) -> neat_child n
| nc_note : forall n, neat_note n -> neat_child n
| nc_front : forall content p cs, neat hard (trim content) -> neat_child (Node (NFrontMatter content) p cs).
End Trail.
