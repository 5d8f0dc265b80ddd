(** Model of src/serializer/punctuation.rs. *)
From Coq Require Import Bool Arith NArith List.
From Verif Require Import Base OptsModel.
Import ListNotations.

(** src/serializer/punctuation.rs:118-144 [transform_ellipsis] *)
Fixpoint transform_ellipsis (text : str) : str :=
  match text with
  | [] => []
  | a :: r1 =>
      if ceq a c_dot then
        match r1 with
        | b :: (c :: r3) =>
            if ceq b c_dot && ceq c c_dot then
              match r3 with
              | d :: r4 =>
                  if ceq d c_dot then c_ellipsis :: c_dot :: transform_ellipsis r4
                  else c_ellipsis :: transform_ellipsis r3
              | [] => [c_ellipsis]
              end
            else a :: transform_ellipsis r1
        | _ => a :: transform_ellipsis r1
        end
      else a :: transform_ellipsis r1
  end.

(** src/serializer/punctuation.rs:437-487 [should_be_opening_quote]; the
    slice and index are replaced by the neighbouring characters. *)
Definition opt_is (p : char -> bool) (o : option char) : bool :=
  match o with Some c => p c | None => false end.
Definition opt_none (o : option char) : bool := match o with None => true | Some _ => false end.

Definition should_be_opening_quote (prev next : option char) (expecting_open : bool) : bool :=
  let prev_suggests_open :=
    opt_none prev ||
    opt_is (fun c => is_ws c || ceq c c_lpar || ceq c c_lbr || ceq c c_lcur
                     || ceq c c_ldq || ceq c c_lsq) prev in
  let next_suggests_close :=
    opt_none next ||
    opt_is (fun c => is_ws c || ceq c c_dot || ceq c c_comma || ceq c c_semi || ceq c c_colon
                     || ceq c c_bang || ceq c c_quest || ceq c c_rpar || ceq c c_rbr
                     || ceq c c_rcur) next in
  if prev_suggests_open && negb next_suggests_close then true
  else if next_suggests_close && negb prev_suggests_open then false
  else expecting_open.

Definition hd_opt (s : str) : option char := match s with c :: _ => Some c | [] => None end.
Definition hd2_opt (s : str) : option char := match s with _ :: c :: _ => Some c | _ => None end.

(** src/serializer/punctuation.rs:147-170 [transform_double_quotes];
    [prev] is [chars[i - 1]]. *)
Fixpoint transform_double_quotes_from (prev : option char) (expecting_open : bool) (text : str) : str :=
  match text with
  | [] => []
  | c :: rest =>
      if ceq c c_dq then
        if should_be_opening_quote prev (hd_opt rest) expecting_open
        then c_ldq :: transform_double_quotes_from (Some c) false rest
        else c_rdq :: transform_double_quotes_from (Some c) true rest
      else c :: transform_double_quotes_from (Some c) expecting_open rest
  end.
Definition transform_double_quotes (text : str) : str := transform_double_quotes_from None true text.

Section WithUni.
Variable U : Uni.

Definition is_s (c : char) : bool := ceq c 115%N || ceq c 83%N.
(** [after_s.is_none() || after_s.is_some_and(|c| !c.is_alphabetic())] *)
Definition possessive_end (after_s : option char) : bool :=
  opt_none after_s || opt_is (fun c => negb (u_alpha U c)) after_s.

(** src/serializer/punctuation.rs:176-291 [transform_single_quotes]: the
    decision for one straight quote, as (output character, new
    [expecting_open]). *)
Definition single_quote_step (prev : option char) (rest : str) (expecting_open : bool) : char * bool :=
  let next := hd_opt rest in
  let after_s := hd2_opt rest in
  let prev_is_letter := opt_is (u_alpha U) prev in
  let next_is_letter := opt_is (u_alpha U) next in
  if prev_is_letter && next_is_letter then (c_sq, expecting_open)
  else if expecting_open && prev_is_letter
          && (opt_none next || opt_is (fun c => is_ws c || is_ascii_punct c) next)
  then (c_sq, expecting_open)
  else if opt_is (fun c => ceq c c_rbr || ceq c c_rpar || ceq c c_rcur) prev
          && opt_is is_s next && possessive_end after_s
  then (c_sq, expecting_open)
  else if opt_is is_ascii_digit prev && opt_is is_s next && possessive_end after_s
  then (c_sq, expecting_open)
  else if opt_none prev && opt_is is_s next && possessive_end after_s
  then (c_sq, expecting_open)
  else if opt_is is_ascii_digit next then (c_rsq, expecting_open)
  else if (opt_none prev || opt_is is_ws prev) && next_is_letter then
    if existsb (ceq c_sq) (firstn 50 rest) then (c_lsq, false) else (c_rsq, expecting_open)
  else if should_be_opening_quote prev next expecting_open then (c_lsq, false)
  else (c_rsq, true).

Fixpoint transform_single_quotes_from (prev : option char) (expecting_open : bool) (text : str) : str :=
  match text with
  | [] => []
  | c :: rest =>
      if ceq c c_sq then
        let d := single_quote_step prev rest expecting_open in
        fst d :: transform_single_quotes_from (Some c) (snd d) rest
      else c :: transform_single_quotes_from (Some c) expecting_open rest
  end.
Definition transform_single_quotes (text : str) : str := transform_single_quotes_from None true text.

(** src/serializer/punctuation.rs:295-390 [transform_apostrophes]: the
    decision for one straight quote, as (output character, new
    [open_single_quote_count]). *)
Definition apostrophe_step (prev : option char) (rest : str) (count : nat) : char * nat :=
  let next := hd_opt rest in
  let after_s := hd2_opt rest in
  let prev_ld := opt_is (u_alnum U) prev in
  let next_ld := opt_is (u_alnum U) next in
  let prev_space := opt_none prev || opt_is is_ws prev in
  let next_space := opt_none next || opt_is is_ws next in
  if prev_ld && next_ld then (c_rsq, count)
  else if prev_ld && opt_is is_s next && possessive_end after_s then (c_rsq, count)
  else if opt_is (fun c => ceq c c_rbr || ceq c c_rpar || ceq c c_rcur) prev
          && opt_is is_s next && possessive_end after_s then (c_rsq, count)
  else if opt_none prev && opt_is is_s next && possessive_end after_s then (c_rsq, count)
  else if prev_space && next_ld then (c_sq, S count)
  else if prev_ld && next_space then
    (if 0 <? count then (c_sq, count - 1) else (c_rsq, count))
  else (c_sq, count).

Fixpoint transform_apostrophes_from (prev : option char) (count : nat) (text : str) : str :=
  match text with
  | [] => []
  | c :: rest =>
      if ceq c c_sq then
        let d := apostrophe_step prev rest count in
        fst d :: transform_apostrophes_from (Some c) (snd d) rest
      else c :: transform_apostrophes_from (Some c) count rest
  end.
Definition transform_apostrophes (text : str) : str := transform_apostrophes_from None 0 text.

(** src/serializer/punctuation.rs:394-435 [transform_dashes]; the index loop
    is a fuelled recursion over the remaining characters with the previous
    original character; the fuel is the length of the text, so it never runs
    out (the pattern is non-empty). *)
Fixpoint transform_dashes_from (fuel : nat) (prev : option char) (pattern : str)
    (replacement : char) (text : str) : str :=
  match fuel with
  | 0 => text
  | S k =>
      match text with
      | [] => []
      | c :: rest =>
          match strip_prefix pattern text with
          | Some after =>
              if List.length pattern =? 1 then
                let prev_is_space := opt_none prev || opt_is is_ws prev in
                let next_is_space := opt_none (hd_opt after) || opt_is is_ws (hd_opt after) in
                if prev_is_space && next_is_space
                then replacement :: transform_dashes_from k (Some c) pattern replacement after
                else c :: transform_dashes_from k (Some c) pattern replacement rest
              else replacement
                     :: transform_dashes_from k (Some (last pattern c)) pattern replacement after
          | None => c :: transform_dashes_from k (Some c) pattern replacement rest
          end
      end
  end.
Definition transform_dashes (text pattern : str) (replacement : char) : str :=
  if is_nil pattern then text
  else transform_dashes_from (List.length text) None pattern replacement text.

(** src/serializer/punctuation.rs:79-115 [transform_punctuation] *)
Definition transform_punctuation (o : Options) (text : str) : str :=
  let r1 := match em_dash o with DPattern p => transform_dashes text p c_emdash | DDisabled => text end in
  let r2 := match en_dash o with DPattern p => transform_dashes r1 p c_endash | DDisabled => r1 end in
  let r3 := if ellipsis o then transform_ellipsis r2 else r2 in
  let r4 := if curly_double_quotes o then transform_double_quotes r3 else r3 in
  let r5 := if curly_single_quotes o then transform_single_quotes r4 else r4 in
  if curly_apostrophes o then transform_apostrophes r5 else r5.
End WithUni.
