(** What an external formatter produces when nothing gets in its way. *)
From Coq Require Import Bool Arith NArith List.
From Verif Require Import Base FormatterModel.
Import ListNotations.

(** Everything a program writes to stdout / stderr up to its exit, and its exit
    code. *)
Fixpoint output_of (p : list act) : list byte :=
  match p with
  | [] => []
  | AOut b :: r => b :: output_of r
  | AExit _ :: _ => []
  | _ :: r => output_of r
  end.
Fixpoint errors_of (p : list act) : list byte :=
  match p with
  | [] => []
  | AErr b :: r => b :: errors_of r
  | AExit _ :: _ => []
  | _ :: r => errors_of r
  end.
Fixpoint exit_code (p : list act) : option nat :=
  match p with
  | [] => None
  | AExit c :: _ => Some c
  | _ :: r => exit_code r
  end.
(** The program leaves nothing running behind. *)
Definition no_fork (p : list act) : Prop := ~ In AFork p.
