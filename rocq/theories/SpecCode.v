(** Independent specification of fenced code blocks (CommonMark 4.5) and of
    "which code must be written" (the README's description of external
    formatters).  Nothing here refers to the model of hongdown, except the
    [Options] record and the environment a formatter runs in. *)
From Coq Require Import Bool Arith NArith String List.
From Verif Require Import Base SpecInline OptsModel CodeModel.
Import ListNotations.

(** ** Lines (CommonMark 2.1): ended by LF, CR LF or a lone CR. *)
Fixpoint cm_lines_aux (cur : str) (s : str) : list str :=
  match s with
  | [] => match cur with [] => [] | _ => [rev cur] end
  | x :: r =>
      if ceq x c_nl then rev cur :: cm_lines_aux [] r
      else if ceq x c_cr then
        match r with
        | y :: r' => if ceq y c_nl then rev cur :: cm_lines_aux [] r' else rev cur :: cm_lines_aux [] r
        | [] => [rev cur]
        end
      else cm_lines_aux (x :: cur) r
  end.
Definition cm_lines (s : str) : list str := cm_lines_aux [] s.

(** Every CR in the text is part of a CR LF pair. *)
Fixpoint no_lone_cr (s : str) : Prop :=
  match s with
  | [] => True
  | x :: r => (x = c_cr -> exists r', r = c_nl :: r') /\ no_lone_cr r
  end.

(** ** Fences *)
Definition is_blank_char (c : char) : bool := ceq c c_sp || ceq c c_tab.
Definition trim_blank (s : str) : str := drop_while_end is_blank_char (drop_while is_blank_char s).

(** Length of the run of [c] at the start. *)
Fixpoint run_len (c : char) (s : str) : nat :=
  match s with x :: r => if ceq x c then S (run_len c r) else 0 | [] => 0 end.

(** At most three spaces of indentation: the indentation and what follows. *)
Definition fence_indent (s : str) : option (nat * str) :=
  let n := run_len c_sp s in if n <=? 3 then Some (n, skipn n s) else None.

(** An opening fence: character, length, indentation and info string.  The
    info string of a backtick fence must not contain backticks; backslash
    escapes work in info strings (entities are not treated here). *)
Definition opening_fence (l : str) : option (char * nat * nat * str) :=
  match fence_indent l with
  | None => None
  | Some (ind, s) =>
      match s with
      | c :: _ =>
          if ceq c c_bt || ceq c c_tilde then
            let n := run_len c s in
            let info := trim_blank (skipn n s) in
            if (3 <=? n) && negb (ceq c c_bt && contains_char c_bt (skipn n s))
            then Some (c, n, ind, cm_unescape info) else None
          else None
      | [] => None
      end
  end.

(** A closing fence for an opening fence of [n] characters [c]. *)
Definition closing_fence (c : char) (n : nat) (l : str) : bool :=
  match fence_indent l with
  | None => false
  | Some (_, s) => let m := run_len c s in (n <=? m) && forallb is_blank_char (skipn m s)
  end.

(** Content lines lose as many spaces as the opening fence was indented by. *)
Definition unindent (ind : nat) (l : str) : str := skipn (Nat.min ind (run_len c_sp l)) l.

Fixpoint fence_body (c : char) (n ind : nat) (ls : list str) : list str * list str :=
  match ls with
  | [] => ([], [])
  | l :: r =>
      if closing_fence c n l then ([], r)
      else let '(body, rest) := fence_body c n ind r in (unindent ind l :: body, rest)
  end.

(** Reads a fenced code block at the start of the lines: info string, content
    lines, remaining lines. *)
Definition read_fenced (ls : list str) : option (str * list str * list str) :=
  match ls with
  | [] => None
  | l :: r =>
      match opening_fence l with
      | None => None
      | Some (c, n, ind, info) => let '(body, rest) := fence_body c n ind r in Some (info, body, rest)
      end
  end.

(** ** Containers: how a reader strips one line of a block quote or of a list
    item whose content starts [w] columns in (spaces only). *)
Definition is_blank (l : str) : bool := forallb is_blank_char l.
Definition strip_quote (l : str) : option str :=
  match fence_indent l with
  | Some (_, c :: r) =>
      if ceq c c_gt then Some (match r with d :: r' => if ceq d c_sp then r' else r | [] => [] end) else None
  | _ => None
  end.
Definition strip_item (w : nat) (l : str) : option str :=
  if w <=? run_len c_sp l then Some (skipn w l)
  else if is_blank l then Some [] else None.

(** Strip all lines; [None] when a line has left the container. *)
Fixpoint strip_all (f : str -> option str) (ls : list str) : option (list str) :=
  match ls with
  | [] => Some []
  | l :: r => match f l, strip_all f r with Some x, Some xs => Some (x :: xs) | _, _ => None end
  end.

(** ** Which code and info string a block must be written with *)

(** The language of a block: the first word of its info string, else the
    configured default. *)
Definition block_language (o : Options) (info : str) : str :=
  match split_whitespace info with w :: _ => w | [] => default_language o end.
(** The info string a block is written with. *)
Definition block_info (o : Options) (info : str) : str :=
  match split_whitespace info with _ :: _ => trim info | [] => default_language o end.
(** The block carries the no-format mark. *)
Definition marked_no_format (info : str) : Prop := In (lit "hongdown-no-format") (split_whitespace info).

(** [first_binding k l v]: looking [k] up in the formatter table gives [v]. *)
Inductive first_binding {A} (k : str) : list (str * A) -> A -> Prop :=
| fb_here : forall v l, first_binding k ((k, v) :: l) v
| fb_later : forall k' w l v, k <> k' -> first_binding k l v -> first_binding k ((k', w) :: l) v.
Definition unbound {A} (k : str) (l : list (str * A)) : Prop := ~ In k (map fst l).

(** [settles o B k info code out calls failed]: given that [k] formatter
    calls happened before, the block's code is written as [out], making
    [calls]; [failed] describes the failure if there was one. *)
Inductive settles (o : Options) (B : backend) (k : nat) (info code : str)
  : str -> list call -> option (CodeFormatter * FormatterError) -> Prop :=
| S_no_language : block_language o info = [] -> settles o B k info code code [] None
| S_marked : marked_no_format info -> settles o B k info code code [] None
| S_unbound : forall run, B = Native run -> unbound (block_language o info) (code_formatters o) ->
    settles o B k info code code [] None
| S_no_callback : B = Wasm None -> settles o B k info code code [] None
| S_success : forall run f out, B = Native run -> ~ marked_no_format info -> block_language o info <> [] ->
    first_binding (block_language o info) (code_formatters o) f ->
    run k (cf_command f) code (cf_timeout f) = inl out ->
    settles o B k info code out [mkCall (cf_command f) (block_language o info) code] None
| S_failure : forall run f e, B = Native run -> ~ marked_no_format info -> block_language o info <> [] ->
    first_binding (block_language o info) (code_formatters o) f ->
    run k (cf_command f) code (cf_timeout f) = inr e ->
    settles o B k info code code [mkCall (cf_command f) (block_language o info) code] (Some (f, e))
| S_callback : forall cb, B = Wasm (Some cb) -> ~ marked_no_format info -> block_language o info <> [] ->
    settles o B k info code
      (match cb k (block_language o info) code with Some x => x | None => code end)
      [mkCall [] (block_language o info) code] None.

(** Info strings that survive the trip: a single line without backslashes, no
    backtick after a backtick fence, and not starting with the fence
    character when it is glued to the fence. *)
Definition info_survives (o : Options) (info : str) : Prop :=
  Forall (fun c => c <> c_nl /\ c <> c_cr /\ c <> c_bs) info
  /\ trim_blank info = info
  /\ (fence_char o = FBacktick -> ~ In c_bt info)
  /\ (space_after_fence o = false -> forall r, info <> fence_char_char (fence_char o) :: r).

(** ** Why a formatter failed, in words (src/serializer/formatter.rs:34-55): a
    program that exits with an error is quoted, when it says anything. *)
Inductive explains : FormatterError -> str -> Prop :=
| ex_empty : explains EmptyCommand (lit "command is empty")
| ex_spawn : forall e, explains (SpawnErr e) (lit "failed to spawn process: " ++ e)
| ex_stdin : forall e, explains (StdinErr e) (lit "failed to write to stdin: " ++ e)
| ex_timeout : explains TimeoutErr (lit "process timed out")
| ex_code : forall c, explains (NonZeroExit (Some c) []) (lit "process exited with code " ++ c)
| ex_code_said : forall c said, said <> [] ->
    explains (NonZeroExit (Some c) said) (lit "process exited with code " ++ c ++ lit ": " ++ trim said)
| ex_signal : explains (NonZeroExit None []) (lit "process terminated by signal")
| ex_signal_said : forall said, said <> [] ->
    explains (NonZeroExit None said) (lit "process terminated by signal: " ++ trim said)
| ex_utf8 : forall e, explains (InvalidUtf8 e) (lit "output is not valid UTF-8: " ++ e).
