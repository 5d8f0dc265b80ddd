(** Words filled into lines (C07). *)
From Coq Require Import Arith List.
From Verif Require Import Base.
Import ListNotations.

Section Fill.
Variable U : Uni.
Variable lw : nat.

(** Lines of words behind prefixes: [p] before the first line, [q] before the
    others.  Every line is within the limit or a single word, and the first word
    of the next line would not have fitted any more. *)
Definition shown (p : str) (g : list str) : str := p ++ join [c_sp] g.
Inductive filled : str -> str -> list (list str) -> Prop :=
| fill_last : forall p q g, g <> [] -> u_width U (shown p g) <= lw \/ (exists w, g = [w]) -> filled p q [g]
| fill_more : forall p q g w h r, g <> [] -> u_width U (shown p g) <= lw \/ (exists w, g = [w]) ->
    lw < u_width U (shown p (g ++ [w])) -> filled q q ((w :: h) :: r) -> filled p q (g :: (w :: h) :: r).
Definition filled_text (p q : str) (gs : list (list str)) : str :=
  match gs with
  | [] => p ++ [c_nl]
  | g :: r => shown p g ++ [c_nl] ++ flat_map (fun g => shown q g ++ [c_nl]) r
  end.
End Fill.
