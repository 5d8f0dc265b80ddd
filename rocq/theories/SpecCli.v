(** What the command-line properties talk about, without the workers. *)
From Coq Require Sorted.
From Coq Require Import Bool Arith NArith String List.
From Verif Require Import Base CliModel.
Import ListNotations.

(** A file that [--check] has to complain about. *)
Definition unclean (fmt : str -> option str) (fs : fsys) (p : path) : Prop :=
  match fs p with Text s => fmt s <> Some s | _ => True end.

(** Standard input is asked for with --stdin or as the file "-". *)
Definition asks_stdin (a : args) : Prop := a_stdin a = true \/ In (lit "-") (a_files a).

(** The files a run without standard input works on; [None]: there are none to
    work on, an error. *)
Definition input_files (expand : list path -> list path) (has_include : bool)
    (collected : option (list path)) (a : args) : option (list path) :=
  match a_files a with
  | [] => if has_include then collected else None
  | fl => Some (expand fl)
  end.

(** The file system after a run that wrote every file it should. *)
Definition formatted_fs (fmt : str -> option str) (files : list path) (fs : fsys) : fsys :=
  fun p => if existsb (seqb p) files then
             match fs p with
             | Text s => match fmt s with Some out => Text out | None => Text s end
             | n => n
             end
           else fs p.

Definition changes (fmt : str -> option str) (fs : fsys) (p : path) : Prop :=
  exists s out, fs p = Text s /\ fmt s = Some out /\ s <> out.
Definition unprocessable (fmt : str -> option str) (fs : fsys) (p : path) : Prop :=
  match fs p with Text s => fmt s = None | _ => True end.

(** Paths of regular files below a tree. *)
Inductive file_at : tree -> tpath -> Prop :=
| at_leaf : file_at Leaf []
| at_dir : forall es n t p, In (n, t) es -> file_at t p -> file_at (Dir es) (n :: p).

(** Directory entries have distinct names, everywhere. *)
Inductive well_named : tree -> Prop :=
| wn_leaf : well_named Leaf
| wn_other : well_named Other
| wn_dir : forall es, NoDup (map fst es) -> (forall n t, In (n, t) es -> well_named t) ->
    well_named (Dir es).

(** The file name ends in .md or .markdown, and there is something before. *)
Definition markdown_name (name : str) : Prop :=
  exists stem ext, name = stem ++ [c_dot] ++ ext /\ stem <> [] /\
    (map ascii_lower ext = lit "md" \/ map ascii_lower ext = lit "markdown").

(** The order in which files are worked on: paths component by component, each
    component character by character. *)
Inductive lex {A} (lt : A -> A -> Prop) : list A -> list A -> Prop :=
| lex_nil : forall y b, lex lt [] (y :: b)
| lex_lt : forall x y a b, lt x y -> lex lt (x :: a) (y :: b)
| lex_eq : forall x a b, lex lt a b -> lex lt (x :: a) (x :: b).
Definition path_lt : tpath -> tpath -> Prop := lex (lex N.lt).
Definition in_order (l : list tpath) : Prop := Sorted.StronglySorted (fun a b => path_lt a b \/ a = b) l.
