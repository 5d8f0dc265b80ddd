(** The parts of a document (C56): vocabulary. *)
From Coq Require Import Bool Arith NArith String List.
From Verif Require Import Base OptsModel CodeModel AstModel StateModel SpecContext SpecDoc.
Import ListNotations.

(** The formatter answers the same whenever it is asked (its result does not
    depend on how many calls there were before). *)
Definition steady (B : backend) : Prop :=
  match B with
  | Native run => forall i j command code timeout, run i command code timeout = run j command code timeout
  | Wasm (Some cb) => forall i j language code, cb i language code = cb j language code
  | Wasm None => True
  end.

(** No footnote is defined or referred to. *)
Definition no_notes (n : node) : Prop := forall m, within m n ->
  match node_value m with NFootnoteDefinition _ | NFootnoteReference _ => False | _ => True end.

(** What is written between two parts, of which the second begins with a
    heading: nothing after front matter, two empty lines before a section,
    one between headings. *)
Definition between (last head : node) : str :=
  match node_value last, node_value head with
  | NFrontMatter _, _ => []
  | NHeading _, _ => [c_nl]
  | _, NHeading 2 => [c_nl; c_nl]
  | _, _ => [c_nl]
  end.

(** A block that leaves nothing behind for the blocks after it but the
    definitions of its links: no directive, no footnotes. *)
Record inert (c : node) : Prop := {
  in_no_document : no_document c = true;
  in_no_notes : no_notes c;
  in_placed : well_placed false c = true;
  in_directs : forall d, ~ directs c d
}.
(** A block after which another part can begin: not HTML, which would be
    moved to the end if it were the last, and not a link outside paragraphs. *)
Definition closing (c : node) : Prop :=
  match node_value c with NHtmlBlock _ | NLink _ _ => False | _ => True end.
(** The heading of a section, before which definitions are written. *)
Definition opens_section (h : node) : Prop := node_value h = NHeading 2 \/ node_value h = NHeading 3.
