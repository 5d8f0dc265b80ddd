(** Model of src/serializer/state.rs: directives, source extraction,
    emphasis delimiters. *)
From Coq Require Import Bool Arith NArith String List.
From Verif Require Import Base AstModel.
Import ListNotations.

(** src/serializer/state.rs:14-27 [FormatSkipMode] *)
Inductive skip_mode := SkipNone | SkipNextBlock | SkipUntilSection | SkipDisabled.

(** src/serializer/state.rs:31-46 [Directive] *)
Inductive directive :=
| DisableNextLine
| DisableFile
| DisableNextSection
| Disable
| Enable
| ProperNouns (nouns : list str)
| CommonNouns (nouns : list str).

(** src/serializer/state.rs:72-76, 81-85: splitting a noun list. *)
Definition split_nouns (args : str) : list str :=
  filter (fun s => negb (is_nil s)) (map trim (split_on c_comma args)).

(** src/serializer/state.rs:51-90 [Directive::parse] *)
Definition parse_directive (html : str) : option directive :=
  let trimmed := trim html in
  if negb (starts_with (lit "<!--") trimmed) || negb (ends_with (lit "-->") trimmed) then None
  else
    match strip_prefix (lit "<!--") trimmed with
    | None => None
    | Some r =>
        match strip_suffix (lit "-->") r with
        | None => None
        | Some body =>
            let content := trim body in
            if seqb content (lit "hongdown-disable-next-line") then Some DisableNextLine
            else if seqb content (lit "hongdown-disable-file") then Some DisableFile
            else if seqb content (lit "hongdown-disable-next-section") then Some DisableNextSection
            else if seqb content (lit "hongdown-disable") then Some Disable
            else if seqb content (lit "hongdown-enable") then Some Enable
            else match strip_prefix (lit "hongdown-proper-nouns:") content with
                 | Some args => Some (ProperNouns (split_nouns args))
                 | None =>
                     match strip_prefix (lit "hongdown-common-nouns:") content with
                     | Some args => Some (CommonNouns (split_nouns args))
                     | None => None
                     end
                 end
        end
    end.

(** Byte offsets in a string given as scalar values.  [floor_chars n s]: the
    number of characters before the greatest character boundary that is at
    most [n]; [ceil_chars n s]: before the least boundary that is at least
    [n] (or the end of the string). *)
Fixpoint floor_chars (n : nat) (s : str) : nat :=
  match s with
  | [] => 0
  | c :: r => if utf8_len c <=? n then S (floor_chars (n - utf8_len c) r) else 0
  end.
Fixpoint ceil_chars (n : nat) (s : str) : nat :=
  match s with
  | [] => 0
  | c :: r => if n =? 0 then 0 else S (ceil_chars (n - utf8_len c) r)
  end.

(** src/serializer/state.rs:200-225 [safe_str_slice].  The final
    [&s[safe_start..safe_end]] panics when the start lies after the end. *)
Definition safe_str_slice (s : str) (start end_ : nat) : res str :=
  let a := floor_chars start s in
  let b := ceil_chars end_ s in
  if b <? a then Panic else Ok (firstn (b - a) (skipn a s)).

Section Source.
(** [source_lines] and [source_ends_with_newline] (state.rs:239, 271). *)
Variable src : list str.
Variable ends_nl : bool.

(** src/serializer/state.rs:390-412: the loop body for line index [i]. *)
Definition extract_line (p : sourcepos) (start_idx end_idx i : nat) : res str :=
  let line := nth i src [] in
  if start_idx =? end_idx then safe_str_slice line (start_col p - 1) (end_col p)
  else if i =? start_idx then safe_str_slice line (start_col p - 1) (byte_len line)
  else if i =? end_idx then safe_str_slice line 0 (Nat.min (end_col p) (byte_len line))
  else Ok line.
(** The loop over [start_idx..=end_idx]; [nth] is in range because
    [end_idx < source_lines.len()]. *)
Fixpoint extract_loop (p : sourcepos) (start_idx end_idx : nat) (is : list nat) : res str :=
  match is with
  | [] => Ok []
  | i :: r =>
      rbind (extract_line p start_idx end_idx i) (fun piece =>
      rbind (extract_loop p start_idx end_idx r) (fun rest =>
      Ok ((if start_idx <? i then [c_nl] else []) ++ piece ++ rest)))
  end.
(** src/serializer/state.rs:367-414 [extract_source] *)
Definition extract_source (p : sourcepos) : res (option str) :=
  if is_nil src then Ok None
  else if (start_line p =? 0) || (end_line p =? 0) then Ok None
  else
    let start_idx := start_line p - 1 in
    let end_idx := end_line p - 1 in
    if List.length src <=? end_idx then Ok None
    else rbind (extract_loop p start_idx end_idx (seq start_idx (S end_idx - start_idx)))
               (fun s => Ok (Some s)).

(** src/serializer/state.rs:418-438 [extract_source_from_line] *)
Definition extract_source_from_line (start : nat) : option str :=
  if is_nil src || (start =? 0) then None
  else
    let start_idx := start - 1 in
    if List.length src <=? start_idx then None
    else Some (join [c_nl] (skipn start_idx src) ++ (if ends_nl then [c_nl] else [])).

(** src/serializer/state.rs:501-512 [node_text_contains_char] *)
Fixpoint text_contains (c : char) (n : node) : bool :=
  match n with
  | Node v _ cs =>
      match v with
      | NText t => contains_char c t
      | _ => existsb (text_contains c) cs
      end
  end.

(** src/serializer/state.rs:469-481 [get_emphasis_delimiter] *)
Definition emphasis_delimiter (n : node) : res char :=
  if text_contains c_star n then Ok c_us
  else rbind (extract_source (node_pos n)) (fun s =>
       match s with
       | Some source => Ok (if starts_with [c_us] source then c_us else c_star)
       | None => Ok c_star
       end).
(** src/serializer/state.rs:486-498 [get_strong_delimiter] *)
Definition strong_delimiter (n : node) : res str :=
  if text_contains c_star n then Ok [c_us; c_us]
  else rbind (extract_source (node_pos n)) (fun s =>
       match s with
       | Some source => Ok (if starts_with [c_us; c_us] source then [c_us; c_us] else [c_star; c_star])
       | None => Ok [c_star; c_star]
       end).
End Source.

(** src/serializer/state.rs:462-464 [is_external_url] *)
Definition is_external_url (url : str) : bool :=
  starts_with (lit "http://") url || starts_with (lit "https://") url.

(** src/serializer/state.rs:95-99 [ReferenceLink] *)
Record reference := mkRef { ref_label : str; ref_url : str; ref_title : str }.
(** src/serializer/state.rs:103-111 [FootnoteDefinition] *)
Record footnote := mkFootnote {
  fn_name : str;
  fn_content : str;
  fn_reference_line : nat;
  fn_has_blocks : bool
}.
