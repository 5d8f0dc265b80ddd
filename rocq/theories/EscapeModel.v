(** Model of src/serializer/escape.rs and of [count_unescaped_pipes]. *)
From Coq Require Import Bool Arith NArith List.
From Verif Require Import Base.
Import ListNotations.

(** src/serializer/escape.rs:4-6 [normalize_whitespace] *)
Definition normalize_whitespace (text : str) : str := join [c_sp] (split_whitespace text).

(** src/serializer/escape.rs:10-71 [escape_text].  The loop over indices is a
    recursion carrying the previous character ([chars[i - 1]], [None] at
    [i == 0]); [chars[i + 1]] is the head of the rest. *)
Fixpoint escape_text_from (prev : option char) (text : str) : str :=
  match text with
  | [] => []
  | c :: rest =>
      (if ceq c c_star || ceq c c_us then [c_bs; c]
       else if ceq c c_lbr then
         let next_is_bracket := match rest with n :: _ => ceq n c_lbr | [] => false end in
         let at_end := is_nil rest in
         if next_is_bracket || at_end then [c] else [c_bs; c]
       else if ceq c c_rbr then
         let prev_is_bracket := match prev with Some p => ceq p c_rbr | None => false end in
         let at_start := match prev with None => true | Some _ => false end in
         let at_end := is_nil rest in
         let next_could_continue_link :=
           match rest with n :: _ => ceq n c_lpar || ceq n c_lbr | [] => false end in
         if prev_is_bracket || at_start || at_end || negb next_could_continue_link
         then [c] else [c_bs; c]
       else if ceq c c_bs || ceq c c_bt then [c_bs; c]
       else [c])
      ++ escape_text_from (Some c) rest
  end.
Definition escape_text (text : str) : str := escape_text_from None text.

(** src/serializer/escape.rs:79-88, the counting loop: (max, current). *)
Fixpoint backtick_loop (mx cur : nat) (s : str) : nat :=
  match s with
  | [] => mx
  | c :: r => if ceq c c_bt then backtick_loop (Nat.max mx (S cur)) (S cur) r
              else backtick_loop mx 0 r
  end.

(** src/serializer/escape.rs:77-116 [format_code_span] *)
Definition format_code_span (content : str) : str :=
  let max_consecutive := backtick_loop 0 0 content in
  let delimiter_count := if 0 <? max_consecutive then max_consecutive + 1 else 1 in
  let delimiter := repc c_bt delimiter_count in
  let needs_space :=
    match content with
    | [] => false
    | first :: _ => ceq first c_bt || ceq (last content c_nul) c_bt
    end in
  if needs_space then delimiter ++ [c_sp] ++ content ++ [c_sp] ++ delimiter
  else delimiter ++ content ++ delimiter.

(** src/serializer/escape.rs:121-137 [is_valid_code_span] *)
Definition is_valid_code_span (source : str) : bool :=
  if is_nil source then false else
  let leading := length (take_while (ceq c_bt) source) in
  if leading =? 0 then false else
  let trailing := length (take_while (ceq c_bt) (rev source)) in
  (leading =? trailing) && (leading <=? byte_len source / 2).

(** src/serializer/escape.rs:141-164 [escape_table_cell] *)
Fixpoint escape_table_cell (content : str) : str :=
  match content with
  | [] => []
  | c :: rest =>
      if ceq c c_bs then
        match rest with
        | d :: rest' => c :: d :: escape_table_cell rest'
        | [] => [c]
        end
      else if ceq c c_pipe then c_bs :: c_pipe :: escape_table_cell rest
      else c :: escape_table_cell rest
  end.

(** src/serializer/table.rs:216-228 [count_unescaped_pipes]; [prev] is
    [prev_char]. *)
Fixpoint count_unescaped_pipes_from (prev : option char) (line : str) : nat :=
  match line with
  | [] => 0
  | c :: r =>
      (if ceq c c_pipe && negb (match prev with Some p => ceq p c_bs | None => false end)
       then 1 else 0) + count_unescaped_pipes_from (Some c) r
  end.
Definition count_unescaped_pipes (line : str) : nat := count_unescaped_pipes_from None line.
