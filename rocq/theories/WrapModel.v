(** Model of src/serializer/wrap.rs. *)
From Coq Require Import Bool Arith NArith String List.
From Verif Require Import Base.
Import ListNotations.

(** The soft-break marker ['\x00']. *)
Definition c_nul : char := 0%N.
(** The hard-break text ["  \n"]. *)
Definition hard_break : str := [c_sp; c_sp; c_nl].

Section Wrap.
Variable U : Uni.

(** The mutable locals of [wrap_single_segment].  Simplification:
    [bracket_depth] is an [i32] in the code and a [nat] here (no overflow at
    2^31 open brackets). *)
Record wst := mkW {
  w_result : str; w_line : str; w_first : bool;
  w_token : str; w_spaces : str; w_bt : bool; w_depth : nat }.

(** src/serializer/wrap.rs:331-368 [add_token_to_line_with_prefix]: returns the
    new result, current line and first-line flag.  [spaces_len] is the byte
    length of the trailing spaces, all of them ASCII spaces. *)
Definition add_token (result line token sps : str) (fpw : nat) (prefix : str) (lw : nat) (first : bool)
  : str * str * bool :=
  let cpw := if first then fpw else u_width U prefix in
  if u_width U line =? cpw then (result, line ++ token ++ sps, first)
  else if u_width U line + u_width U token + byte_len sps <=? lw then (result, line ++ token ++ sps, first)
  else (result ++ trim_end line ++ [c_nl], prefix ++ token ++ sps, false).

(** The block "if !current_token.is_empty() && !trailing_spaces.is_empty()",
    followed by pushing the character. *)
Definition flush_token (fpw : nat) (prefix : str) (lw : nat) (s : wst) : wst :=
  if negb (is_nil (w_token s)) && negb (is_nil (w_spaces s)) then
    let '(r, l, f) := add_token (w_result s) (w_line s) (w_token s) (w_spaces s) fpw prefix lw (w_first s) in
    mkW r l f [] [] (w_bt s) (w_depth s)
  else s.
Definition push_char (c : char) (bt : bool) (d : nat) (s : wst) : wst :=
  mkW (w_result s) (w_line s) (w_first s) (w_token s ++ [c]) (w_spaces s) bt d.

(** src/serializer/wrap.rs:231-304: one iteration of the character loop. *)
Definition wrap_step (fpw : nat) (prefix : str) (lw : nat) (s : wst) (ch : char) : wst :=
  if ceq ch c_bt && (w_depth s =? 0) then
    if w_bt s then push_char ch false (w_depth s) s
    else push_char ch true (w_depth s) (flush_token fpw prefix lw s)
  else if w_bt s then push_char ch (w_bt s) (w_depth s) s
  else if ceq ch c_lbr then
    push_char ch (w_bt s) (S (w_depth s)) (if w_depth s =? 0 then flush_token fpw prefix lw s else s)
  else if ceq ch c_rbr && (0 <? w_depth s) then push_char ch (w_bt s) (w_depth s - 1) s
  else if 0 <? w_depth s then push_char ch (w_bt s) (w_depth s) s
  else if ceq ch c_sp then
    mkW (w_result s) (w_line s) (w_first s) (w_token s) (w_spaces s ++ [ch]) (w_bt s) (w_depth s)
  else push_char ch (w_bt s) (w_depth s) (flush_token fpw prefix lw s).

(** src/serializer/wrap.rs:205-329 [wrap_single_segment] *)
Definition wrap_single_segment (text first_prefix prefix : str) (lw : nat) : str :=
  let fpw := u_width U first_prefix in
  let s := fold_left (wrap_step fpw prefix lw) text (mkW [] first_prefix true [] [] false 0) in
  let '(r, l) :=
    if negb (is_nil (w_token s)) then
      let '(r, l, _) := add_token (w_result s) (w_line s) (w_token s) [] fpw prefix lw (w_first s) in (r, l)
    else (w_result s, w_line s) in
  let final := trim_end l in
  if negb (is_nil final) then r ++ final else r.

(** "merged": the current line and all remaining ones, trimmed, joined by spaces. *)
Fixpoint merge_rest (merged : str) (rest : list str) : str :=
  match rest with [] => merged | l :: r => merge_rest (merged ++ [c_sp] ++ trim l) r end.

(** "if !result.is_empty() { result.push('\n') }" *)
Definition push_nl (result : str) : str := if negb (is_nil result) then result ++ [c_nl] else result.

(** src/serializer/wrap.rs:52-88: the loop of [wrap_text_segment]. *)
Fixpoint segment_loop (result : str) (ls : list str) (prefix : str) (lw : nat) : str :=
  match ls with
  | [] => result
  | l :: rest =>
      let line := trim l in
      if u_width U prefix + u_width U line <=? lw then
        segment_loop (push_nl result ++ prefix ++ line) rest prefix lw
      else push_nl result ++ wrap_single_segment (merge_rest line rest) prefix prefix lw
  end.
(** src/serializer/wrap.rs:40-89 [wrap_text_segment] *)
Definition wrap_text_segment (text prefix : str) (lw : nat) : str :=
  match split_on c_nul text with
  | [_] => wrap_single_segment text prefix prefix lw
  | ls => segment_loop [] ls prefix lw
  end.

(** src/serializer/wrap.rs:25-36: the loop of [wrap_text]. *)
Fixpoint hard_loop (result : str) (first : bool) (segs : list str) (prefix : str) (lw : nat) : str :=
  match segs with
  | [] => result
  | s :: r => hard_loop ((if first then result else result ++ hard_break) ++ wrap_text_segment s prefix lw)
                        false r prefix lw
  end.
(** src/serializer/wrap.rs:13-37 [wrap_text] *)
Definition wrap_text (text prefix : str) (lw : nat) : str :=
  match split_on c_nl text with
  | [_] => wrap_text_segment text prefix lw
  | segs => hard_loop [] true segs prefix lw
  end.

(** src/serializer/wrap.rs:156-198: the loop of [wrap_text_first_line_segment]. *)
Fixpoint first_segment_loop (result : str) (first : bool) (ls : list str) (fp cp : str) (lw : nat) : str :=
  match ls with
  | [] => result
  | l :: rest =>
      let line := trim l in
      let cur := if first then fp else cp in
      if u_width U cur + u_width U line <=? lw then
        first_segment_loop (push_nl result ++ cur ++ line) false rest fp cp lw
      else push_nl result ++ wrap_single_segment (merge_rest line rest) cur cp lw
  end.
(** src/serializer/wrap.rs:137-199 [wrap_text_first_line_segment] *)
Definition wrap_text_first_line_segment (text fp cp : str) (lw : nat) : str :=
  match split_on c_nul text with
  | [_] => wrap_single_segment text fp cp lw
  | ls => first_segment_loop [] true ls fp cp lw
  end.

(** src/serializer/wrap.rs:114-131: the loop of [wrap_text_first_line]. *)
Fixpoint first_hard_loop (result : str) (first : bool) (segs : list str) (fp cp : str) (lw : nat) : str :=
  match segs with
  | [] => result
  | s :: r =>
      let result := if first then result else result ++ hard_break ++ cp in
      first_hard_loop (result ++ wrap_text_first_line_segment s (if first then fp else []) cp lw) false r fp cp lw
  end.
(** src/serializer/wrap.rs:98-134 [wrap_text_first_line] *)
Definition wrap_text_first_line (text fp cp : str) (lw : nat) : str :=
  match split_on c_nl text with
  | [_] => wrap_text_first_line_segment text fp cp lw
  | segs => first_hard_loop [] true segs fp cp lw
  end.
End Wrap.
