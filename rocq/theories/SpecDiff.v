(** Reading a unified diff: what [patch] does with one, strictly (no fuzz, no
    offsets), without reference to how it was printed. *)
From Coq Require Import Bool Arith NArith String List.
From Verif Require Import Base SpecContext.
Import ListNotations.

(** A text and its lines; [None] if the last line is not ended. *)
Definition text_of (ls : list str) : str := flat_map (fun l => l ++ [c_nl]) ls.
Fixpoint ended_lines (cur : str) (s : str) : option (list str) :=
  match s with
  | [] => if is_nil cur then Some [] else None
  | c :: r => if ceq c c_nl then option_map (cons (rev cur)) (ended_lines [] r)
              else ended_lines (c :: cur) r
  end.

Definition number (s : str) : option (N * str) :=
  let d := take_while is_ascii_digit s in
  if is_nil d then None else Some (decimal_value d, drop_while is_ascii_digit s).
(** "3" or "3,2" *)
Definition range (s : str) : option (N * N * str) :=
  match number s with
  | None => None
  | Some (a, r) =>
      match strip_prefix [c_comma] r with
      | None => Some (a, 1%N, r)
      | Some r' => match number r' with Some (n, r'') => Some (a, n, r'') | None => None end
      end
  end.
(** "@@ -3,2 +4 @@" *)
Definition head_line (l : str) : option (N * N * N * N) :=
  match strip_prefix (lit "@@ -") l with
  | None => None
  | Some r =>
      match range r with
      | None => None
      | Some (a, n, r) =>
          match strip_prefix (lit " +") r with
          | None => None
          | Some r =>
              match range r with
              | Some (b, m, r) => if seqb r (lit " @@") then Some (a, n, b, m) else None
              | None => None
              end
          end
      end
  end.

(** The lines before a hunk: its first line is counted from one; a hunk of no
    lines comes after the line it names. *)
Definition before_hunk (a n : N) : N := if (n =? 0)%N then a else (a - 1)%N.

(** [at_old] lines of the old text are used up, [at_new] of the new one are
    there, [todo] is left of the old one; the current hunk still has [n] old
    and [m] new lines.  Yields the rest of the new text. *)
Fixpoint follow (d : list str) (at_old at_new : N) (todo : list str) (n m : N) {struct d}
  : option (list str) :=
  match d with
  | [] => if ((n =? 0) && (m =? 0))%N then Some todo else None
  | l :: d' =>
      if ((n =? 0) && (m =? 0))%N then
        match head_line l with
        | None => None
        | Some (a, n', b, m') =>
            let upto := before_hunk a n' in
            let k := N.to_nat (upto - at_old) in
            if (upto <? at_old)%N || (List.length todo <? k)
               || negb (before_hunk b m' =? at_new + (upto - at_old))%N then None
            else option_map (app (firstn k todo))
                   (follow d' upto (at_new + (upto - at_old)) (skipn k todo) n' m')
        end
      else
        match l with
        | [] => None
        | c :: t =>
            if ceq c c_plus then
              if (0 <? m)%N then option_map (cons t) (follow d' at_old (at_new + 1) todo n (m - 1)) else None
            else
              match todo with
              | [] => None
              | x :: todo' =>
                  if negb (seqb x t) || (n =? 0)%N then None
                  else if ceq c c_dash then follow d' (at_old + 1) at_new todo' (n - 1) m
                  else if ceq c c_sp && (0 <? m)%N then
                    option_map (cons t) (follow d' (at_old + 1) (at_new + 1) todo' (n - 1) (m - 1))
                  else None
              end
        end
  end.

Definition apply_patch (d o : str) : option str :=
  match ended_lines [] d, ended_lines [] o with
  | Some (h1 :: h2 :: d'), Some ls =>
      if starts_with (lit "--- ") h1 && starts_with (lit "+++ ") h2
      then option_map text_of (follow d' 0 0 ls 0 0) else None
  | _, _ => None
  end.

(** Every line is ended by a line feed, and a carriage return only comes before
    one. *)
Definition plain_line (l : str) : Prop :=
  ~ In c_nl l /\ forall a b, l = a ++ c_cr :: b -> b = [].
Definition plain_text (s : str) : Prop := exists ls, s = text_of ls /\ Forall plain_line ls.
