(** What a document needs so that nothing panics (C31). *)
From Coq Require Import Bool Arith NArith String List.
From Verif Require Import Base OptsModel AstModel SerModel SpecContext.
Import ListNotations.

(** A one-line position that ends a whole character or more before it starts. *)
Definition backward (src : list str) (p : sourcepos) : Prop :=
  start_line p = end_line p /\ 1 <= start_line p /\
  exists u w t, nth_error src (start_line p - 1) = Some (u ++ w ++ t)
    /\ w <> [] /\ end_col p <= byte_len u /\ byte_len (u ++ w) <= start_col p - 1.
(** The label of a footnote fits into a line, by display width and by bytes. *)
Definition label_fits (U : Uni) (o : Options) (name : str) : Prop :=
  u_width U (lit "[^" ++ name ++ lit "]: ") <= line_width o
  /\ byte_len (lit "[^" ++ name ++ lit "]: ") <= line_width o.
(** A footnote whose text is one run of words: no code block, quote, list or
    table and at most one paragraph among its children. *)
Definition plain_note (n : node) : Prop :=
  (forall c, In c (node_children n) ->
     match node_value c with NCodeBlock _ _ | NBlockQuote | NList _ _ | NTable _ => False | _ => True end)
  /\ forall a b c x y, node_children n = a ++ x :: b ++ y :: c -> node_value x = NParagraph -> node_value y <> NParagraph.

(** [checks]: the program was built with overflow checks. *)
Record sound (U : Uni) (o : Options) (src : list str) (checks : bool) (n : node) : Prop := {
  so_items : well_placed false n = true;
  so_positions : forall m, within m n -> ~ backward src (node_pos m);
  so_lines : checks = true -> forall m, within m n -> 1 <= start_line (node_pos m);
  so_notes : checks = true -> forall m name, within m n -> node_value m = NFootnoteDefinition name -> plain_note m ->
    label_fits U o name
}.
