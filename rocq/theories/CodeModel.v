(** Model of src/serializer/code.rs and of the error type of
    src/serializer/formatter.rs. *)
From Coq Require Import Bool Arith NArith String List.
From Verif Require Import Base OptsModel.
Import ListNotations.

(** src/serializer/formatter.rs:13-32 [FormatterError]; operating system error
    values are represented by their [Display] text. *)
Inductive FormatterError :=
| EmptyCommand
| SpawnErr (e : str)
| StdinErr (e : str)
| TimeoutErr
| NonZeroExit (code : option str) (stderr : str)
| InvalidUtf8 (e : str).

(** src/serializer/formatter.rs:34-55 [Display for FormatterError] *)
Definition formatter_error_text (e : FormatterError) : str :=
  match e with
  | EmptyCommand => lit "command is empty"
  | SpawnErr e => lit "failed to spawn process: " ++ e
  | StdinErr e => lit "failed to write to stdin: " ++ e
  | TimeoutErr => lit "process timed out"
  | NonZeroExit code stderr =>
      (match code with
       | Some c => lit "process exited with code " ++ c
       | None => lit "process terminated by signal"
       end)
      ++ (if is_nil stderr then [] else lit ": " ++ trim stderr)
  | InvalidUtf8 e => lit "output is not valid UTF-8: " ++ e
  end.

(** How code is handed to a formatter.  [Native run]: the k-th call of
    [run_formatter] (src/serializer/formatter.rs:79-136) made by this
    formatting run, for an arbitrary environment.  [Wasm cb]: the optional
    JavaScript callback (src/serializer/state.rs:227-232); its k-th answer. *)
Inductive backend :=
| Native (run : nat -> list str -> str -> N -> str + FormatterError)
| Wasm (cb : option (nat -> str -> str -> option str)).

(** src/serializer/state.rs:190-197 [Warning] *)
Record warning := mkWarning { warn_line : nat; warn_message : str }.

(** A formatter invocation (ghost: records the effects the code has on the
    outside world): command (empty for the callback), language and code. *)
Record call := mkCall { call_command : list str; call_language : str; call_code : str }.

(** What one use of the formatter machinery does besides its result. *)
Record effects := mkEff { eff_warnings : list warning; eff_calls : list call }.
Definition no_effects : effects := mkEff [] [].

(** [HashMap::get] *)
Fixpoint assoc_str {A} (k : str) (l : list (str * A)) : option A :=
  match l with
  | [] => None
  | (k', a) :: r => if seqb k k' then Some a else assoc_str k r
  end.

(** src/serializer/code.rs:8 [NO_FORMAT_KEYWORD] *)
Definition no_format_keyword : str := lit "hongdown-no-format".

(** src/serializer/code.rs:19-35 [parse_code_info] *)
Definition parse_code_info (info : str) : str * str * bool :=
  let trimmed := trim info in
  if is_nil trimmed then ([], [], false)
  else
    let has_no_format := existsb (fun w => seqb w no_format_keyword) (split_whitespace trimmed) in
    let language := match split_whitespace trimmed with w :: _ => w | [] => [] end in
    (language, trimmed, has_no_format).

Section Code.
Variable o : Options.
Variable B : backend.

(** src/serializer/code.rs:44-76 [try_format_code] (both targets).  [k] is the
    number of formatter calls made so far. *)
Definition try_format_code (k : nat) (language code : str) : option str * effects :=
  match B with
  | Native run =>
      match assoc_str language (code_formatters o) with
      | None => (None, no_effects)
      | Some f =>
          let c := mkCall (cf_command f) language code in
          match run k (cf_command f) code (cf_timeout f) with
          | inl formatted => (Some formatted, mkEff [] [c])
          | inr e =>
              (None,
               mkEff [mkWarning 0 (lit "code formatter '" ++ join [c_sp] (cf_command f)
                                   ++ lit "' failed for language '" ++ language ++ lit "': "
                                   ++ formatter_error_text e)] [c])
          end
      end
  | Wasm (Some cb) => (cb k language code, mkEff [] [mkCall [] language code])
  | Wasm None => (None, no_effects)
  end.

(** The part the three writers share (code.rs:85-107, 145-168, 234-256): the
    info string to write and the code to write. *)
Definition code_parts (k : nat) (info literal : str) : str * str * effects :=
  let '(parsed_lang, info_output, skip_format) := parse_code_info info in
  let language := if is_nil parsed_lang then default_language o else parsed_lang in
  let output_info :=
    if is_nil info_output && negb (is_nil (default_language o)) then default_language o else info_output in
  let '(formatted, eff) :=
    if negb (is_nil language) && negb skip_format then try_format_code k language literal
    else (None, no_effects) in
  (output_info, match formatted with Some f => f | None => literal end, eff).

(** "if !output_info.is_empty() { ... }" after an opening fence. *)
Definition info_suffix (output_info : str) : str :=
  if is_nil output_info then []
  else (if space_after_fence o then [c_sp] else []) ++ output_info.

(** code.rs:171-182 and 259-270: longest fence at the start of a line. *)
Definition fence_run (fc : char) (line : str) : option nat :=
  let trimmed := trim_start line in
  if starts_with [fc] trimmed then Some (List.length (take_while (fun c => ceq c fc) trimmed)) else None.
Definition max_fence_in_content (fc : char) (content : str) : nat :=
  fold_left (fun m line => match fence_run fc line with Some n => Nat.max m n | None => m end)
            (lines content) 0.
Definition fence_for (content : str) : str :=
  let fc := fence_char_char (fence_char o) in
  repc fc (Nat.max (min_fence_length o) (max_fence_in_content fc content + 1)).

(** src/serializer/code.rs:140-220 [serialize_code_block]: the text appended
    to the output. *)
Definition code_block (in_block_quote : bool) (k : nat) (info literal : str) : str * effects :=
  let '(output_info, content, eff) := code_parts k info literal in
  let fence := fence_for content in
  let q := if in_block_quote then lit "> " else [] in
  (q ++ fence ++ info_suffix output_info ++ [c_nl]
     ++ flat_map (fun line =>
          (if in_block_quote then (if is_nil line then lit ">" else lit "> ") else [])
          ++ line ++ [c_nl]) (lines content)
     ++ q ++ fence ++ [c_nl], eff).

(** src/serializer/code.rs:224-306 [serialize_code_block_indented] *)
Definition code_block_indented (in_block_quote : bool) (k : nat) (info literal indent : str)
  : str * effects :=
  let '(output_info, content, eff) := code_parts k info literal in
  let fence := fence_for content in
  let q := if in_block_quote then lit "> " else [] in
  (fence ++ info_suffix output_info ++ [c_nl]
     ++ flat_map (fun line => q ++ (if is_nil line then [] else indent ++ line) ++ [c_nl]) (lines content)
     ++ q ++ indent ++ fence ++ [c_nl], eff).

(** src/serializer/code.rs:79-138 [serialize_code_block_with_indent] *)
Definition code_block_with_indent (k : nat) (info literal indent : str) : str * effects :=
  let fc := fence_char_char (fence_char o) in
  let base_fence := repc fc (min_fence_length o) in
  let long_fence := repc fc (min_fence_length o + 1) in
  let '(output_info, content, eff) := code_parts k info literal in
  let fence := if contains_sub base_fence content then long_fence else base_fence in
  (fence ++ info_suffix output_info ++ [c_nl]
     ++ flat_map (fun line => (if is_nil line then [] else indent ++ line) ++ [c_nl]) (lines content)
     ++ (if negb (ends_with [c_nl] content) && negb (is_nil content) then [c_nl] else [])
     ++ indent ++ fence ++ [c_nl], eff).
End Code.
