(** Undefined references that are reported (C67). *)
From Coq Require Import Bool Arith NArith String List.
From Verif Require Import Base AstModel.
Import ListNotations.

(** What can stand between the brackets of a reference. *)
Definition reference_label (label : str) : Prop :=
  label <> [] /\ ~ In c_rbr label /\ forall c r, label = c :: r -> c <> c_lbr /\ c <> c_caret /\ c <> c_bang.
(** Each opening bracket is closed again. *)
Definition closed (a : str) : Prop := forall u v, a = u ++ c_lbr :: v -> In c_rbr v.
(** The text after a reference that has no label of its own, or an empty one. *)
Definition alone_or_collapsed (b : str) : Prop := (forall r, b <> c_lbr :: r) \/ exists r, b = c_lbr :: c_rbr :: r.
(** The node [m] is in [n], and not in code or HTML. *)
Inductive in_prose (m : node) : node -> Prop :=
| ip_here : in_prose m m
| ip_below : forall v p cs c, (match v with NCodeBlock _ _ | NCode _ | NHtmlBlock _ | NHtmlInline _ => False | _ => True end) ->
    In c cs -> in_prose m c -> in_prose m (Node v p cs).
(** A line with no escaped opening bracket. *)
Definition unescaped (line : str) : Prop := forall u v, line <> u ++ c_bs :: c_lbr :: v.
