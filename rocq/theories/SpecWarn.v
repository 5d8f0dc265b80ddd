(** Lines with warnings (C33). *)
From Coq Require Import Bool Arith NArith String List.
From Verif Require Import Base AstModel StateModel SpecState SpecContext SpecDoc.
Import ListNotations.

(** [l] lies before the first of [cs] that satisfies [P]. *)
Definition before_first (P : node -> Prop) (cs : list node) (l : nat) : Prop :=
  forall mid e post, cs = mid ++ e :: post -> Forall (fun n => ~ P n) mid -> P e -> l < start_line (node_pos e).
Definition section_heading (n : node) : Prop := exists l, node_value n = NHeading l /\ l <= 2.

(** Line [l] is disabled by a directive among the blocks [cs]. *)
Definition disabled_line (cs : list node) (l : nat) : Prop :=
  exists pre d dir rest, cs = pre ++ d :: rest /\ directs d dir /\
    match dir with
    | DisableFile => end_line (node_pos d) < l
    | Disable => end_line (node_pos d) < l /\ before_first (fun n => directs n Enable) rest l
    | DisableNextSection => end_line (node_pos d) < l /\ before_first section_heading rest l
    | DisableNextLine =>
        exists n r, rest = n :: r /\ (forall e, ~ directs n e) /\ start_line (node_pos n) <= l <= end_line (node_pos n)
    | _ => False
    end.

(** The line defines the label: a bracketed label, a colon, something. *)
Definition defines (line label : str) : Prop :=
  exists w tail c, line = w ++ [c_lbr] ++ label ++ lit "]:" ++ tail /\ ws w /\ ~ In c_rbr label
    /\ In c tail /\ is_ws c = false.
(** The line is an abbreviation definition. *)
Definition abbreviates (line label : str) : Prop :=
  exists tail, line = lit "*[" ++ label ++ lit "]:" ++ tail /\ ~ In c_rbr label.

Section Written.
Variable text : str.
(** The block [c] of [cs] is formatted, starting in mode [m]. *)
Inductive written : mode -> list node -> node -> Prop :=
| wr_here : forall m c cs, ordinary c cs -> frozen m c = false \/ (forall x, ~ spans text (node_pos c) x) -> written m (c :: cs) c
| wr_note : forall m n cs c, note_definition n -> written m cs c -> written m (n :: cs) c
| wr_trailing : forall m n cs c, trails n cs -> written m cs c -> written m (n :: cs) c
| wr_directive : forall m n d cs c, directs n d -> d <> DisableFile -> written (after_directive m d) cs c -> written m (n :: cs) c
| wr_block : forall m n cs c, ordinary n cs -> written (after_block m n) cs c -> written m (n :: cs) c.
End Written.

(** Blocks follow each other line by line. *)
Inductive in_order : nat -> list node -> Prop :=
| io_nil : forall l, in_order l []
| io_cons : forall l n cs, l < start_line (node_pos n) -> start_line (node_pos n) <= end_line (node_pos n) ->
    in_order (end_line (node_pos n)) cs -> in_order l (n :: cs).
(** No directive other than noun lists stands between a disable directive and
    the end of what it disables. *)
Definition quiet (n : node) : Prop := forall d, directs n d -> match d with ProperNouns _ | CommonNouns _ => True | _ => False end.
Definition flat_regions (cs : list node) : Prop :=
  forall pre d mid n post, cs = pre ++ d :: mid ++ n :: post ->
    (directs d Disable /\ Forall (fun m => ~ directs m Enable) (mid ++ [n]) -> quiet n)
    /\ (directs d DisableNextSection /\ Forall (fun m => ~ section_heading m) (mid ++ [n]) -> quiet n).
