(** Where the blank lines inside a block are (C53): in lists, in items, in
    quotes and in alerts, at any depth. *)
From Coq Require Import Bool Arith NArith String List.
From Verif Require Import Base AstModel SpecCode SpecStructure.
Import ListNotations.

(** A line inside a quote and a line inside an item. *)
Definition in_quote (l : str) : str := match l with [] => lit ">" | _ => lit "> " ++ l end.
Definition in_item (l : str) : str := match l with [] => [] | _ => lit "    " ++ l end.

(** Blank lines between two blocks of an item.  A list stands directly below a
    paragraph unless the document had a blank line there.  Elsewhere one blank
    line is meant; where the serializer counts on a line that is still open and
    there is none, it becomes two. *)
Definition gap_lines (prev c : node) : nat :=
  match node_value c, node_value prev with
  | NList _ _, NParagraph => if end_line (node_pos prev) + 1 <? start_line (node_pos c) then 1 else 0
  | NList _ _, _ => if end_line (node_pos prev) + 1 <? start_line (node_pos c) then 2 else 1
  | NParagraph, (NParagraph | NCodeBlock _ _ | NList _ _) => 1
  | _, NParagraph => 1
  | _, _ => 2
  end.
(** A blank line after the title of an alert. *)
Definition title_gap (p : sourcepos) (cs : list node) : nat :=
  match cs with
  | [] => 0
  | c :: _ => if start_line p + 1 <? start_line (node_pos c) then 1 else 0
  end.

(** [spaced_block n ls]: the lines [ls] of the block [n], as they are in the
    block around it, have their blank lines where they belong. *)
Inductive spaced_block : node -> list str -> Prop :=
| spc_plain : forall n ls,
    match node_value n with NParagraph | NHeading _ | NThematicBreak | NTable _ => True | _ => False end ->
    Forall (fun l => is_blank l = false) ls -> spaced_block n ls
| spc_other : forall n ls,
    match node_value n with NCodeBlock _ _ | NHtmlBlock _ | NDescriptionList => True | _ => False end -> spaced_block n ls
| spc_quote : forall p cs ls, spaced_blocks cs ls -> spaced_block (Node NBlockQuote p cs) (map in_quote ls)
| spc_alert : forall a p cs ls, spaced_blocks cs ls ->
    spaced_block (Node (NAlert a) p cs) (map in_quote ((lit "[!" ++ alert_word a ++ lit "]") :: repeat [] (title_gap p cs) ++ ls))
| spc_list : forall kind tight p cs ls, spaced_items tight cs ls -> spaced_block (Node (NList kind tight) p cs) ls
(** The blocks of a quote: one blank line between them. *)
with spaced_blocks : list node -> list str -> Prop :=
| sb_nil : spaced_blocks [] []
| sb_one : forall c ls, spaced_block c ls -> spaced_blocks [c] ls
| sb_more : forall c ls cs rest, spaced_block c ls -> cs <> [] -> spaced_blocks cs rest -> spaced_blocks (c :: cs) (ls ++ [] :: rest)
(** The items of a list: nothing between them if it is tight, one blank line if
    it is loose. *)
with spaced_items : bool -> list node -> list str -> Prop :=
| si_one : forall tight n ls, spaced_item n ls -> spaced_items tight [n] ls
| si_more : forall tight n ls cs rest, spaced_item n ls -> cs <> [] -> spaced_items tight cs rest ->
    spaced_items tight (n :: cs) (ls ++ (if tight then [] else [[]]) ++ rest)
(** An item: its marker (and box), with the first line behind it. *)
with spaced_item : node -> list str -> Prop :=
| sn_empty : forall v p mark, is_blank mark = false -> spaced_item (Node v p []) [mark]
| sn_blocks : forall v p mark c l ls cs rest, is_blank mark = false ->
    spaced_block c (l :: ls) -> spaced_rest c cs rest ->
    spaced_item (Node v p (c :: cs)) ((mark ++ l) :: map in_item (ls ++ rest))
(** The blocks after [prev] in an item. *)
with spaced_rest : node -> list node -> list str -> Prop :=
| sr_nil : forall prev, spaced_rest prev [] []
| sr_more : forall prev c ls cs rest, spaced_block c ls -> spaced_rest c cs rest ->
    spaced_rest prev (c :: cs) (repeat [] (gap_lines prev c) ++ ls ++ rest).
