(** Transcription of the file-handling half of [src/main.rs]: the run modes,
    the parallel workers as a transition system over a file system, and the
    expansion of path arguments. *)
From Coq Require Import Bool Arith NArith String List.
From Verif Require Import Base.
Import ListNotations.

(** A path is a string; distinct paths are distinct files (no links). *)
Definition path := str.

(** What [fs::read_to_string] can find. *)
Inductive fnode :=
| Absent
| Unreadable                 (* directory, no permission, not UTF-8, ... *)
| Text (content : str).

Definition fsys := path -> fnode.
Definition fs_set (fs : fsys) (p : path) (n : fnode) : fsys :=
  fun q => if seqb q p then n else fs q.

Section Files.
(** [format_with_warnings]; [None] stands for [Err] (lib.rs never returns it)
    or a panic caught by nobody.  Warnings go to stderr and are left out. *)
Variable fmt : str -> option str.
Variable write check : bool.

(** One worker of [files.par_iter().for_each] (main.rs 199-243).
    [fs::write] opens the file with truncation and then writes piece by piece;
    pieces are modelled at character granularity. *)
Inductive task :=
| TStart
| TRead (input : str)                      (* input read, not yet formatted *)
| TWriting (out : str) (written : nat)     (* file truncated, prefix written *)
| TDone.

(** Shared effects of one step: [has_error.store(true)],
    [all_formatted.store(false)], the path printed, and two ghost entries: the
    path opened for writing, the path whose write failed. *)
Record effect := mkEffect {
  e_error : bool; e_unformatted : bool;
  e_printed : list path; e_opened : list path; e_failed : list path
}.
Definition quiet := mkEffect false false [] [] [].
Definition error := mkEffect true false [] [] [].

Record world := mkWorld {
  w_fs : fsys;
  w_tasks : list (path * task);
  w_error : bool;                          (* has_error *)
  w_unformatted : bool;                    (* !all_formatted *)
  w_printed : list path;                   (* println! of written files *)
  w_opened : list path;                    (* ghost: files opened for writing *)
  w_failed : list path                     (* ghost: files whose write failed *)
}.

(** One step of one worker: its own next state, the file system and the shared
    effects.  The relation is not deterministic: system calls may fail, pieces
    have any size. *)
Inductive task_step (fs : fsys) (p : path) : task -> task -> fsys -> effect -> Prop :=
| step_read : forall s, fs p = Text s ->                                 (* main.rs 200-201 *)
    task_step fs p TStart (TRead s) fs quiet
| step_read_error : (forall s, fs p <> Text s) ->                        (* 202-206 *)
    task_step fs p TStart TDone fs error
| step_format_error : forall s, fmt s = None ->                          (* 238-241 *)
    task_step fs p (TRead s) TDone fs error
| step_check_same : forall s, check = true -> fmt s = Some s ->          (* 221-222 *)
    task_step fs p (TRead s) TDone fs quiet
| step_check_differs : forall s out, check = true -> fmt s = Some out -> s <> out ->  (* 222-225 *)
    task_step fs p (TRead s) TDone fs (mkEffect false true [] [] [])
| step_skip : forall s out, check = false -> fmt s = Some out -> (write = false \/ s = out) ->  (* 226 *)
    task_step fs p (TRead s) TDone fs quiet
| step_open : forall s out, check = false -> write = true -> fmt s = Some out -> s <> out ->  (* 227, O_TRUNC *)
    task_step fs p (TRead s) (TWriting out 0) (fs_set fs p (Text []))
      (mkEffect false false [] [p] [])
| step_open_error : forall s out, check = false -> write = true -> fmt s = Some out -> s <> out ->  (* 231-234 *)
    task_step fs p (TRead s) TDone fs (mkEffect true false [] [] [p])
| step_write : forall out n m, n < m -> m <= List.length out ->
    task_step fs p (TWriting out n) (TWriting out m) (fs_set fs p (Text (firstn m out))) quiet
| step_write_error : forall out n,                                       (* 231-234, e.g. disk full *)
    task_step fs p (TWriting out n) TDone fs (mkEffect true false [] [] [p])
| step_close : forall out,                                               (* 228-230 *)
    task_step fs p (TWriting out (List.length out)) TDone fs (mkEffect false false [p] [] []).

(** Any worker may move next (rayon schedules). *)
Inductive step : world -> world -> Prop :=
| step_any : forall fs l p t r e u pr op fl t' fs' ef,
    task_step fs p t t' fs' ef ->
    step (mkWorld fs (l ++ (p, t) :: r) e u pr op fl)
         (mkWorld fs' (l ++ (p, t') :: r) (e || e_error ef) (u || e_unformatted ef)
            (pr ++ e_printed ef) (op ++ e_opened ef) (fl ++ e_failed ef)).

Inductive steps : world -> world -> Prop :=
| steps_refl : forall w, steps w w
| steps_cons : forall w1 w2 w3, steps w1 w2 -> step w2 w3 -> steps w1 w3.

(** [process_files_parallel] (main.rs 190-250): start and exit code. *)
Definition start (fs : fsys) (files : list path) : world :=
  mkWorld fs (map (fun p => (p, TStart)) files) false false [] [] [].
Definition finished (w : world) : Prop := Forall (fun pt => snd pt = TDone) (w_tasks w).
Definition exit_failure (w : world) : bool := w_error w || (check && w_unformatted w).

(** [process_files_sequential] (main.rs 253-284) and [process_files_diff]
    (287-318), reading the files in order and stopping at the first error.
    [show] is what is printed for one file ([print!] of the output, or
    [print_diff]).  The file system is threaded through.  The result: file
    system, printed text, exit failure. *)
Definition read_file (fs : fsys) (p : path) : fsys * option str :=
  (fs, match fs p with Text s => Some s | _ => None end).
Fixpoint process_in_order (show : path -> str -> str -> str) (fs : fsys) (files : list path)
  : fsys * str * bool :=
  match files with
  | [] => (fs, [], false)
  | p :: r =>
      match read_file fs p with
      | (fs1, None) => (fs1, [], true)
      | (fs1, Some s) =>
          match fmt s with
          | None => (fs1, [], true)
          | Some out =>
              let '(fs2, printed, bad) := process_in_order show fs1 r in
              (fs2, show p s out ++ printed, bad)
          end
      end
  end.
End Files.

(** The arguments that select the mode (main.rs 16-48). *)
Record args := mkArgs {
  a_files : list path;
  a_stdin : bool;
  a_write : bool;
  a_check : bool;
  a_diff : bool
}.
(** [conflicts_with_all] (main.rs 26-35): at most one of the three. *)
Definition args_accepted (a : args) : bool :=
  negb (a_write a && a_check a) && negb (a_write a && a_diff a) && negb (a_check a && a_diff a).
Definition stdin_requested (a : args) : bool :=          (* main.rs 118 *)
  a_stdin a || existsb (seqb (lit "-")) (a_files a).

(** main.rs 121-186: what is run.  [expand] is [expand_paths], [collected] the
    result of [config.collect_files] ([None]: error), [has_include] whether
    include patterns are configured. *)
Inductive run_mode :=
| RunNothing                                   (* error message, FAILURE *)
| RunStdin
| RunParallel (files : list path) (write check : bool)
| RunDiff (files : list path)
| RunPlain (files : list path).
Definition select_mode (expand : list path -> list path) (has_include : bool)
    (collected : option (list path)) (a : args) : run_mode :=
  let files :=
    if is_nil (a_files a) && negb (stdin_requested a) then
      if has_include then collected else None
    else if stdin_requested a then
      Some (expand (filter (fun f => negb (seqb f (lit "-"))) (a_files a)))
    else Some (expand (a_files a)) in
  match files with
  | None => RunNothing
  | Some fl =>
      if stdin_requested a then RunStdin
      else if a_write a || a_check a then RunParallel fl (a_write a) (a_check a)
      else if a_diff a then RunDiff fl
      else RunPlain fl
  end.

(** Which exit codes a run can have: [outcome fs stdin mode fs' failed]. *)
Inductive outcome (fmt : str -> option str) (show_diff : path -> str -> str -> str) (fs : fsys) (stdin : option str)
  : run_mode -> fsys -> bool -> Prop :=
| out_nothing : outcome fmt show_diff fs stdin RunNothing fs true
| out_stdin_unreadable : stdin = None -> outcome fmt show_diff fs stdin RunStdin fs true     (* 154-157 *)
| out_stdin : forall s, stdin = Some s ->                                                    (* 159-176 *)
    outcome fmt show_diff fs stdin RunStdin fs (match fmt s with Some _ => false | None => true end)
| out_parallel : forall files write check w,
    steps fmt write check (start fs files) w -> finished w ->
    outcome fmt show_diff fs stdin (RunParallel files write check) (w_fs w) (exit_failure check w)
| out_diff : forall files fs' out bad,
    process_in_order fmt show_diff fs files = (fs', out, bad) ->
    outcome fmt show_diff fs stdin (RunDiff files) fs' bad
| out_plain : forall files fs' out bad,
    process_in_order fmt (fun _ _ out => out) fs files = (fs', out, bad) ->
    outcome fmt show_diff fs stdin (RunPlain files) fs' bad.

(** Directory trees for [expand_paths] / [collect_md_files] (main.rs 351-380).
    Symbolic links and unreadable directories are left out. *)
Inductive tree :=
| Leaf                                     (* a regular file *)
| Other                                    (* socket, device, ... *)
| Dir (entries : list (str * tree)).

Definition tpath := list str.              (* path components *)

(** [WalkDir]: all entries below, here directly the regular files. *)
Fixpoint walk (here : tpath) (t : tree) {struct t} : list tpath :=
  match t with
  | Leaf => [here]
  | Other => []
  | Dir es =>
      (fix go (l : list (str * tree)) : list tpath :=
         match l with
         | [] => []
         | (n, t') :: r => walk (here ++ [n]) t' ++ go r
         end) es
  end.

(** [Path::extension] of the last component: the part after the last dot,
    unless that dot is the first character. *)
Definition not_dot (c : char) : bool := negb (ceq c c_dot).
Definition extension (name : str) : option str :=
  match drop_while not_dot (rev name) with
  | [] | [_] => None
  | _ => Some (rev (take_while not_dot (rev name)))
  end.
Fixpoint eq_ignore_case (a b : str) : bool :=
  match a, b with
  | [], [] => true
  | x :: a', y :: b' => eq_ignore_ascii_case x y && eq_ignore_case a' b'
  | _, _ => false
  end.
Definition is_markdown (p : tpath) : bool :=
  match extension (last p []) with
  | Some ext => eq_ignore_case ext (lit "md") || eq_ignore_case ext (lit "markdown")
  | None => false
  end.

(** [files.sort()]: components in order, each compared by bytes (which for
    UTF-8 is the order of the scalar values). *)
Fixpoint str_leb (a b : str) : bool :=
  match a, b with
  | [], _ => true
  | _ :: _, [] => false
  | x :: a', y :: b' => if N.eqb x y then str_leb a' b' else N.ltb x y
  end.
Fixpoint path_leb (a b : tpath) : bool :=
  match a, b with
  | [], _ => true
  | _ :: _, [] => false
  | x :: a', y :: b' => if seqb x y then path_leb a' b' else str_leb x y
  end.
Fixpoint insert_path (p : tpath) (l : list tpath) : list tpath :=
  match l with
  | [] => [p]
  | q :: r => if path_leb p q then p :: l else q :: insert_path p r
  end.
Definition sort_paths (l : list tpath) : list tpath := fold_right insert_path [] l.

Definition collect_md_files (dir : tpath) (entries : list (str * tree)) : list tpath :=
  sort_paths (filter is_markdown (walk dir (Dir entries))).

(** [expand_paths]; [lookup] is what exists at a path argument. *)
Definition expand_paths (lookup : tpath -> option tree) (paths : list tpath) : list tpath :=
  flat_map (fun p => match lookup p with
                     | Some (Dir es) => collect_md_files p es
                     | _ => [p]
                     end) paths.

(** [Config::collect_files] (config.rs 1075-1122).  The walker of the crate
    [ignore] is a parameter: [patterns_ok] whether all patterns parse,
    [entries] what it yields, [None] for an error, otherwise the path and
    whether it is a regular file. *)
Definition collect_files (include : list str) (patterns_ok : bool) (entries : list (option (tpath * bool)))
  : option (list tpath) :=
  if is_nil include then Some []
  else if negb patterns_ok then None
  else
    (fix go (es : list (option (tpath * bool))) (files : list tpath) : option (list tpath) :=
       match es with
       | [] => Some (sort_paths files)
       | None :: _ => None
       | Some (p, file) :: r => go r (if file then files ++ [p] else files)
       end) entries [].
