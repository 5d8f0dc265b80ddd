(** Where the blank lines of a document are (C53): between two blocks there is
    one, before a section heading there are two, and the footnotes and link
    definitions that end a section are set apart by one each (STYLE.md,
    "Spacing"). *)
From Coq Require Import Bool Arith NArith String List.
From Verif Require Import Base OptsModel CodeModel HeadingModel AstModel StateModel InlineModel SpecCode SpecHeading
  SpecWrap SpecBlocks SpecEnd SpecDoc SpecStructure SpecGaps.
Import ListNotations.

(** Lines that neither begin nor end with a blank line. *)
Definition solid (ls : list str) : Prop := (exists l r, ls = l :: r /\ is_blank l = false) /\ last ls [] <> [].

(** Lines which are read as blocks of one sort only. *)
Definition only (sort : block -> bool) (ls : list str) : Prop :=
  solid ls /\ exists bs, reads ls bs /\ bs <> [] /\ Forall (fun b => sort b = true) bs.
Definition at_most_one {A : Type} (P : A -> Prop) (l : list A) : Prop := l = [] \/ exists x, l = [x] /\ P x.
(** What stands at the end of a section: its footnotes, its link definitions,
    and the link definitions of its footnotes. *)
Definition closing (gs : list (list str)) : Prop :=
  exists notes links inner, gs = notes ++ links ++ inner
    /\ at_most_one (only is_foot) notes /\ at_most_one (only is_definition) links /\ at_most_one (only is_definition) inner.
(** One blank line before each. *)
Definition set_apart (gs : list (list str)) : list str := flat_map (fun g => [] :: g) gs.

Definition head_of (n : node) : option nat := match node_value n with NHeading l => Some l | _ => None end.
(** Sections begin with headings of the second and the third level. *)
Definition begins_section (n : node) : Prop := head_of n = Some 2 \/ head_of n = Some 3.
Definition blanks_between (prev : option node) (n : node) : nat :=
  match prev with
  | None => 0
  | Some p =>
      match head_of p, head_of n with
      | None, Some 2 => 2
      | _, _ => 1
      end
  end.

Section Spacing.
Variable U : Uni.
Variable PN : list (str * str).
Variable ENT : str -> option str.
Variable o : Options.
Variable B : backend.
Variable src : list str.
Notation same := (same U PN ENT o B src).

(** [arranged hs prev cs ls]: after [prev] the lines [ls] are the blocks [cs],
    and the HTML blocks [hs] that end the document, which are written one after
    another as they are. *)
Inductive arranged (hs : list node) : option node -> list node -> list str -> Prop :=
| lo_block : forall prev n cs gs b ls rest,
    closing gs -> gs = [] \/ begins_section n /\ prev <> None ->
    same 0 n b -> reads ls [b] -> solid ls -> spaced_block n ls ->
    arranged hs (Some n) cs rest ->
    arranged hs prev (n :: cs) (set_apart gs ++ repeat [] (blanks_between prev n) ++ ls ++ rest)
| lo_end : forall prev gs ls bs,
    closing gs -> reads ls bs -> Forall2 (same 0) hs bs ->
    arranged hs prev [] (set_apart gs ++ match hs with [] => [] | _ => [] :: ls end).
End Spacing.

(** HTML blocks, but no directives. *)
Definition html_only (n : node) : Prop := exists l, html_literal n l /\ forall d, ~ directs n d.
(** The document is [cs], then HTML blocks [hs], then its footnotes. *)
Definition ends_in_html (children cs hs : list node) : Prop :=
  main_part children = cs ++ hs /\ Forall html_only hs /\ (cs = [] \/ exists cs' n, cs = cs' ++ [n] /\ ~ html_only n).
Definition notes_last (children : list node) : Prop :=
  exists cs ns, children = cs ++ ns /\ Forall (fun n => ~ note_definition n) cs /\ Forall note_definition ns.
