(** Transcription of [run_formatter] ([src/serializer/formatter.rs] 79-136) as
    a transition system: the caller, the child process, the pipes between
    them, and time in milliseconds. *)
From Coq Require Import Bool Arith NArith List.
From Verif Require Import Base.
Import ListNotations.

Definition byte := N.

(** What a child process does, one system call at a time.  How long it waits
    between two actions is left open.  A program that ends without [AExit]
    never exits. *)
Inductive act :=
| ARead                      (* take one byte from stdin, or notice its end *)
| AOut (b : byte)            (* write one byte to stdout *)
| AErr (b : byte)            (* write one byte to stderr *)
| AFork                      (* leave a background process that inherits the pipes *)
| AExit (code : nat).        (* 0: success *)

(** [Result<String, FormatterError>] after a successful spawn. *)
Inductive fresult :=
| FText (s : str)
| FInvalidUtf8
| FNonZero (code : nat) (stderr : list byte)
| FTimeout
| FStdin.

(** Where the caller is. *)
Inductive caller :=
| PWriting (remaining : nat)                 (* write_all: bytes not yet written *)
| PPoll (start next : nat)                   (* loop: begin, time of the next try_wait *)
| PCollect                                   (* wait_with_output *)
| PReturned (time : nat) (r : fresult).

Record fstate := mkF {
  f_now : nat;
  f_caller : caller;
  f_prog : list act;                 (* rest of the child's program *)
  f_exit : option (nat * nat);       (* exit code and time *)
  f_in : nat;                        (* bytes in the stdin pipe *)
  f_in_closed : bool;                (* caller has closed its end *)
  f_out : list byte;                 (* bytes in the stdout pipe *)
  f_err : list byte;                 (* bytes in the stderr pipe *)
  f_held : bool;                     (* a background process has the pipes open *)
  f_wrote : option nat               (* ghost: when write_all was done *)
}.

Section Run.
Variable utf8 : list byte -> option str.     (* String::from_utf8 *)
Variable cap : nat.                          (* pipe capacity *)
Variable timeout : nat.                      (* milliseconds *)

Definition interval := 50.                   (* formatter.rs 109 *)

Definition no_reader (f : fstate) : bool :=
  match f_exit f with Some _ => negb (f_held f) | None => false end.

(** The caller is not waiting for anything: time does not pass (computation
    takes no time in the model). *)
Definition ready (f : fstate) : bool :=
  match f_caller f with
  | PWriting r => (r =? 0) || (f_in f <? cap) || no_reader f
  | PPoll _ next => next <=? f_now f
  | PCollect => negb (f_held f)
  | PReturned _ _ => false
  end.

Definition collect (code : nat) (out err : list byte) : fresult :=    (* 116-123 *)
  if code =? 0 then match utf8 out with Some s => FText s | None => FInvalidUtf8 end
  else FNonZero code err.

Inductive fstep : fstate -> fstate -> Prop :=
(** time passes *)
| f_tick : forall f, ready f = false ->
    fstep f (mkF (S (f_now f)) (f_caller f) (f_prog f) (f_exit f) (f_in f) (f_in_closed f)
               (f_out f) (f_err f) (f_held f) (f_wrote f))
(** the caller: [write_all] (99-104) *)
| f_write : forall n r k p x i c o e h w, 0 < k -> k <= r -> i + k <= cap ->
    (x = None \/ h = true) ->
    fstep (mkF n (PWriting r) p x i c o e h w) (mkF n (PWriting (r - k)) p x (i + k) c o e h w)
| f_broken_pipe : forall n r p x i c o e w, 0 < r -> x <> None ->
    fstep (mkF n (PWriting r) p x i c o e false w) (mkF n (PReturned n FStdin) p x i true o e false w)
| f_written : forall n p x i c o e h w,
    fstep (mkF n (PWriting 0) p x i c o e h w) (mkF n (PPoll n n) p x i true o e h (Some n))
(** the caller: the polling loop (111-135) *)
| f_poll_exited : forall n s nx p x i c o e h w, nx <= n -> x <> None ->
    fstep (mkF n (PPoll s nx) p x i c o e h w) (mkF n PCollect p x i c o e h w)
| f_poll_timeout : forall n s nx p i c o e h w, nx <= n -> timeout <= n - s ->
    fstep (mkF n (PPoll s nx) p None i c o e h w) (mkF n (PReturned n FTimeout) [] None i c o e h w)
| f_poll_again : forall n s nx p i c o e h w, nx <= n -> n - s < timeout ->
    fstep (mkF n (PPoll s nx) p None i c o e h w) (mkF n (PPoll s (n + interval)) p None i c o e h w)
(** the caller: [wait_with_output] reads both pipes to their end (115) *)
| f_collect : forall n p code t i c o e w,
    fstep (mkF n PCollect p (Some (code, t)) i c o e false w)
          (mkF n (PReturned n (collect code o e)) p (Some (code, t)) i c o e false w)
(** the child *)
| f_read : forall n q p i c o e h w,
    fstep (mkF n q (ARead :: p) None (S i) c o e h w) (mkF n q p None i c o e h w)
| f_read_end : forall n q p o e h w,
    fstep (mkF n q (ARead :: p) None 0 true o e h w) (mkF n q p None 0 true o e h w)
| f_out_byte : forall n q b p i c o e h w, List.length o < cap ->
    fstep (mkF n q (AOut b :: p) None i c o e h w) (mkF n q p None i c (o ++ [b]) e h w)
| f_err_byte : forall n q b p i c o e h w, List.length e < cap ->
    fstep (mkF n q (AErr b :: p) None i c o e h w) (mkF n q p None i c o (e ++ [b]) h w)
| f_fork : forall n q p i c o e h w,
    fstep (mkF n q (AFork :: p) None i c o e h w) (mkF n q p None i c o e true w)
| f_exit_ : forall n q code p i c o e h w,
    fstep (mkF n q (AExit code :: p) None i c o e h w) (mkF n q p (Some (code, n)) i c o e h w)
(** the background process ends *)
| f_release : forall n q p x i c o e w,
    fstep (mkF n q p x i c o e true w) (mkF n q p x i c o e false w).

Inductive fruns : fstate -> fstate -> Prop :=
| fruns_refl : forall f, fruns f f
| fruns_cons : forall f1 f2 f3, fruns f1 f2 -> fstep f2 f3 -> fruns f1 f3.

(** After the spawn (90-96): [len] bytes of code to write. *)
Definition spawned (len : nat) (prog : list act) : fstate :=
  mkF 0 (PWriting len) prog None 0 false [] [] false None.
End Run.

(** The start of the function (84-96): what is known before the process runs. *)
Inductive started :=
| StartEmptyCommand
| StartSpawnError
| StartRunning (f : fstate).
Definition run_formatter_start (spawn : list str -> option (list act)) (command : list str) (code : list byte) : started :=
  match command with
  | [] => StartEmptyCommand
  | _ => match spawn command with
         | None => StartSpawnError
         | Some prog => StartRunning (spawned (List.length code) prog)
         end
  end.
