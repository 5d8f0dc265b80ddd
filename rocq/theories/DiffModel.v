(** Transcription of [print_diff] (src/main.rs 321-345).  The differences come
    from the crate [similar] ([TextDiff::from_lines], [unified_diff]), which is
    not modelled: its hunks are a parameter, and [diff_of] says what is assumed
    about them. *)
From Coq Require Import Bool Arith NArith String List.
From Verif Require Import Base.
Import ListNotations.

(** [ChangeTag]; a [Change] is a tag and a line with its end ([value()]). *)
Inductive tag := Delete | Insert | Equal.
Definition change : Type := tag * str.
(** A hunk of [iter_hunks()]: where it begins in either file, counted from 0
    ([ops[0].old_range().start], [new_range().start]), and [iter_changes()]. *)
Record hunk := mkHunk { h_old : nat; h_new : nat; h_changes : list change }.

Definition in_old (c : change) : bool := match fst c with Insert => false | _ => true end.
Definition in_new (c : change) : bool := match fst c with Delete => false | _ => true end.
Definition olds (cs : list change) : list str := map snd (filter in_old cs).
Definition news (cs : list change) : list str := map snd (filter in_new cs).

(** [hunk.header()] ([UnifiedHunkHeader] of [similar]): "@@ -1,3 +1,4 @@",
    without the length where it is one, beginning one earlier where it is
    zero. *)
Definition hunk_range (start len : nat) : str :=
  if len =? 1 then dec (start + 1)
  else dec (if len =? 0 then start else start + 1) ++ [c_comma] ++ dec len.
Definition hunk_header (h : hunk) : str :=
  lit "@@ -" ++ hunk_range (h_old h) (List.length (olds (h_changes h))) ++
  lit " +" ++ hunk_range (h_new h) (List.length (news (h_changes h))) ++ lit " @@".

(** main.rs 334-338 *)
Definition sign (t : tag) : char :=
  match t with Delete => c_dash | Insert => c_plus | Equal => c_sp end.
(** main.rs 339-342 *)
Definition print_change (c : change) : str :=
  sign (fst c) :: snd c ++ (if ends_with [c_nl] (snd c) then [] else [c_nl]).
(** main.rs 332-343 *)
Definition print_hunk (h : hunk) : str :=
  hunk_header h ++ [c_nl] ++ flat_map print_change (h_changes h).
(** main.rs 321-345 *)
Definition print_diff (hunks : str -> str -> list hunk) (filename original formatted : str) : str :=
  if seqb original formatted then []
  else lit "--- " ++ filename ++ [c_nl] ++ lit "+++ " ++ filename ++ [c_nl] ++
       flat_map print_hunk (hunks original formatted).

(** The lines [TextDiff::from_lines] compares: a line ends after "\n", "\r\n"
    or a lone "\r" and keeps its end. *)
Fixpoint diff_lines (cur : str) (s : str) {struct s} : list str :=
  match s with
  | [] => if is_nil cur then [] else [rev cur]
  | c :: r =>
      if ceq c c_nl then rev (c :: cur) :: diff_lines [] r
      else if ceq c c_cr then
        match r with
        | d :: r' =>
            if ceq d c_nl then rev (d :: c :: cur) :: diff_lines [] r'
            else rev (c :: cur) :: diff_lines [] r
        | [] => [rev (c :: cur)]
        end
      else diff_lines (c :: cur) r
  end.

(** What is assumed of [similar]: the hunks in order turn the old lines into
    the new ones, everything between them is the same in both, and each knows
    where it begins. *)
Inductive diff_of : nat -> nat -> list str -> list str -> list hunk -> Prop :=
| diff_end : forall i j rest, diff_of i j rest rest []
| diff_hunk : forall i j gap cs xs ys hs,
    cs <> [] ->
    diff_of (i + List.length gap + List.length (olds cs)) (j + List.length gap + List.length (news cs)) xs ys hs ->
    diff_of i j (gap ++ olds cs ++ xs) (gap ++ news cs ++ ys)
      (mkHunk (i + List.length gap) (j + List.length gap) cs :: hs).
Definition correct_diff (hunks : str -> str -> list hunk) (o f : str) : Prop :=
  diff_of 0 0 (diff_lines [] o) (diff_lines [] f) (hunks o f).
