(** What it means that the context is as it was (C27, C28). *)
From Coq Require Import Bool Arith NArith String List.
From Verif Require Import Base AstModel SerModel.
Import ListNotations.

(** Items occur only as children of lists, as in every tree a Markdown parser
    builds; [in_list]: the node itself is a child of a list. *)
Definition is_item (v : value) : bool := match v with NItem | NTaskItem _ => true | _ => false end.
Definition is_list_kind (v : value) : bool := match v with NList _ _ => true | _ => false end.
Fixpoint well_placed (in_list : bool) (n : node) : bool :=
  match n with
  | Node v _ cs => (negb (is_item v) || in_list) && forallb (well_placed (is_list_kind v)) cs
  end.

(** No document occurs below another node. *)
Fixpoint no_document (n : node) : bool :=
  match n with
  | Node v _ cs => match v with NDocument => false | _ => true end && forallb no_document cs
  end.

(** Every field but the item counter and the first-list flag is the same; the
    flag is the same or has been cleared. *)
Record same_place (c c' : ctx) : Prop := {
  sp_type : list_type c' = list_type c;
  sp_tight : list_tight c' = list_tight c;
  sp_quote : in_block_quote c' = in_block_quote c;
  sp_prefix : blockquote_prefix c' = blockquote_prefix c;
  sp_depth : list_depth c' = list_depth c;
  sp_details : in_description_details c' = in_description_details c;
  sp_first : description_details_first_list c' = description_details_first_list c
             \/ description_details_first_list c' = false;
  sp_max : ordered_list_max_items c' = ordered_list_max_items c;
  sp_indent : list_item_indent c' = list_item_indent c;
  sp_outer : blockquote_outer_indent c' = blockquote_outer_indent c;
  sp_entry : blockquote_entry_list_depth c' = blockquote_entry_list_depth c
}.

(** ** Lists (C27) *)

(** [s] is the decimal notation of [n]. *)
Definition digit_value (c : char) : N := (c - 48)%N.
Definition decimal_value (s : str) : N := fold_left (fun a c => a * 10 + digit_value c)%N s 0%N.
Record numeral (s : str) (n : N) : Prop := {
  nu_digits : Forall (fun c => 48 <= c <= 57)%N s;
  nu_value : decimal_value s = n;
  nu_nonempty : s <> [];
  nu_no_zero : forall r, s = 48%N :: r -> r = []
}.

(** [m] is [n] or stands below it. *)
Inductive within (m : node) : node -> Prop :=
| within_here : within m m
| within_below : forall v p cs c, In c cs -> within m c -> within m (Node v p cs).
