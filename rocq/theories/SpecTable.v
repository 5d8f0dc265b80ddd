(** Independent specification: how a GFM reader reads the lines of a table
    (GFM 4.10), and what a display width must satisfy. *)
From Coq Require Import Bool Arith NArith String List.
From Verif Require Import Base SpecCode TableModel.
Import ListNotations.

(** Split a line at its delimiter pipes, those not right after a backslash. *)
Fixpoint split_pipes (after_bs : bool) (cur : str) (s : str) : list str :=
  match s with
  | [] => [rev cur]
  | c :: r =>
      if ceq c c_pipe && negb after_bs then rev cur :: split_pipes false [] r
      else split_pipes (ceq c c_bs) (c :: cur) r
  end.
(** A row written with both outer pipes: its cells, trimmed. *)
Definition read_row (l : str) : option (list str) :=
  match split_pipes false [] l with
  | [] :: rest =>
      match rev rest with
      | [] :: mid => Some (map trim_blank (rev mid))
      | _ => None
      end
  | _ => None
  end.

(** A cell of the delimiter row: dashes with optional colons at the ends. *)
Definition read_alignment (c : str) : option alignment :=
  let left := match c with x :: _ => ceq x c_colon | [] => false end in
  let body := if left then tl c else c in
  let n := run_len c_dash body in
  match n, skipn n body with
  | 0, _ => None
  | _, [] => Some (if left then ALeft else ANone)
  | _, [x] => if ceq x c_colon then Some (if left then ACenter else ARight) else None
  | _, _ => None
  end.
Fixpoint all_some {A} (l : list (option A)) : option (list A) :=
  match l with
  | [] => Some []
  | Some a :: r => match all_some r with Some x => Some (a :: x) | None => None end
  | None :: _ => None
  end.
Definition read_delimiter_row (l : str) : option (list alignment) :=
  match read_row l with Some cs => all_some (map read_alignment cs) | None => None end.

(** Widths add up across a space; printable ASCII counts one column each. *)
Definition table_width_laws (U : Uni) : Prop :=
  (forall a b, u_width U (a ++ c_sp :: b) = u_width U a + 1 + u_width U b)
  /\ (forall s, Forall (fun c => is_ascii_graphic c = true) s -> u_width U s = List.length s).
