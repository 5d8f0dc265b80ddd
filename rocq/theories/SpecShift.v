(** A document among other lines (C60).  Independent of how anything is written. *)
From Coq Require Import Bool Arith NArith String List.
From Verif Require Import Base CodeModel AstModel StateModel WarnModel.
Import ListNotations.

(** The same tree [k] lines further down. *)
Definition moved_pos (k : nat) (p : sourcepos) : sourcepos :=
  mkPos (k + start_line p) (start_col p) (k + end_line p) (end_col p).
Fixpoint moved (k : nat) (n : node) : node :=
  match n with Node v p cs => Node v (moved_pos k p) (map (moved k) cs) end.

(** Every position lies within a text of [len] lines. *)
Inductive placed (len : nat) : node -> Prop :=
| placed_node : forall v p cs, 1 <= start_line p <= len -> 1 <= end_line p <= len ->
    Forall (placed len) cs -> placed len (Node v p cs).

(** A warning [k] lines further down: warnings without a line keep none, and the
    message is the same but for the line at which a table starts. *)
Definition moved_line (k l : nat) : nat := if l =? 0 then 0 else k + l.
Definition moved_warning (k : nat) (w w' : warning) : Prop :=
  warn_line w' = moved_line k (warn_line w)
  /\ (warn_message w' = warn_message w
      \/ exists a l, warn_message w = a ++ lit "(table starts at line " ++ dec l ++ lit ")"
                  /\ warn_message w' = a ++ lit "(table starts at line " ++ dec (k + l) ++ lit ")").

(** The lines around a text define none of the names that count in the text. *)
Definition same_names (src big : list str) : Prop :=
  (forall x, In x (captures abbreviation big) <-> In x (captures abbreviation src))
  /\ (forall x, In x (captures source_definition big) <-> In x (captures source_definition src)).
