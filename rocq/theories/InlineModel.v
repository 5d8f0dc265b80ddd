(** Model of src/serializer/inline.rs, src/serializer/link.rs and of
    [get_reference_style_info] in src/serializer/mod.rs: collecting inline
    content.

    The collectors append to a buffer and call [add_reference]; they read
    nothing they change.  So each returns the text it appends together with
    the list of things it did, in order ([inline_event]).  [EvCode] is ghost:
    it records the code spans written. *)
From Coq Require Import Bool Arith NArith ZArith String List.
From Verif Require Import Base EscapeModel OptsModel PunctModel AstModel StateModel.
Import ListNotations.

(** Hexadecimal digits ([u32::from_str_radix(_, 16)]). *)
Definition hex_digit (c : char) : option N :=
  if is_ascii_digit c then Some (c - 48)%N
  else if ((65 <=? c) && (c <=? 70))%N then Some (c - 55)%N
  else if ((97 <=? c) && (c <=? 102))%N then Some (c - 87)%N
  else None.
Fixpoint hex_val (acc : N) (s : str) : option N :=
  match s with
  | [] => Some acc
  | c :: r => match hex_digit c with Some d => hex_val (acc * 16 + d)%N r | None => None end
  end.
Definition parse_hex (s : str) : option N :=
  let body := match s with c :: r => if ceq c c_plus then r else s | [] => s end in
  match body with
  | [] => None
  | _ => match hex_val 0%N body with
         | Some v => if (v <=? u32_max)%N then Some v else None
         | None => None
         end
  end.
(** [char::from_u32] *)
Definition char_from_u32 (v : N) : option char :=
  if ((v <? 55296) || (57343 <? v) && (v <=? 1114111))%N then Some v else None.

(** [str::trim_start_matches(&str)]; [fuel] bounds the number of matches. *)
Fixpoint trim_start_matches_fuel (fuel : nat) (p s : str) : str :=
  match fuel with
  | 0 => s
  | S k => match strip_prefix p s with Some r => trim_start_matches_fuel k p r | None => s end
  end.
Definition trim_start_matches (p s : str) : str := trim_start_matches_fuel (List.length s) p s.

Section Entities.
(** The table of named entities of the crate html-escape: name to text. *)
Variable ENT : str -> option str.

(** src/serializer/inline.rs:425-461 [decode_html_entity] *)
Definition decode_html_entity (entity : str) : option char :=
  if starts_with (lit "&#") entity then
    let inner := drop_while_end (ceq c_semi) (trim_start_matches (lit "&#") entity) in
    match (match strip_prefix (lit "x") inner with
           | Some h => Some h
           | None => strip_prefix (lit "X") inner
           end) with
    | Some hex => match parse_hex hex with Some v => char_from_u32 v | None => None end
    | None => match parse_uint u32_max inner with Some v => char_from_u32 v | None => None end
    end
  else
    let name := drop_while_end (ceq c_semi) (drop_while (ceq c_amp) entity) in
    match ENT name with
    | Some [c] => Some c
    | _ => None
    end.

(** src/serializer/inline.rs:406-419: the loop of [try_parse_html_entity].
    [n] is [12 - (end - start)], [acc] the reversed characters from the '&'. *)
Fixpoint entity_loop (n : nat) (acc : str) (s : str) : option (str * char) :=
  match n with
  | 0 => None
  | S k =>
      match s with
      | [] => None
      | c :: r =>
          if ceq c c_semi then
            let entity := rev (c :: acc) in
            match decode_html_entity entity with
            | Some d => Some (entity, d)
            | None => None
            end
          else if negb (is_ascii_alnum c) && negb (ceq c c_hash) then None
          else entity_loop k (c :: acc) r
      end
  end.
(** src/serializer/inline.rs:399-422 [try_parse_html_entity] at the start of
    [s]. *)
Definition try_parse_html_entity (s : str) : option (str * char) :=
  match s with
  | c :: r => if ceq c c_amp then entity_loop 11 [c_amp] r else None
  | [] => None
  end.

(** [escape::escape_text(&ch.to_string())] *)
Definition escape1 (c : char) : str := escape_text [c].
(** inline.rs:330-332 *)
Definition needs_escaping (c : char) : bool :=
  (1 <? byte_len (escape1 c)) && starts_with [c_bs] (escape1 c).

(** src/serializer/inline.rs:296-395 [escape_text_preserving_source].  The
    indices are the remaining suffixes.  An entity is ASCII, so advancing by
    [entity.len()] bytes is advancing by its characters. *)
Fixpoint escape_preserving (text : str) : str -> str :=
  match text with
  | [] => fun _ => []
  | t :: text' =>
      fix inner (source : str) : str :=
        match source with
        | [] => escape1 t ++ escape_preserving text' []
        | s :: source' =>
            let plain :=
              if ceq s c_amp then
                match try_parse_html_entity source with
                | Some (entity, d) =>
                    if ceq d t then entity ++ escape_preserving text' (skipn (List.length entity) source)
                    else escape1 t ++ escape_preserving text' source
                | None =>
                    if ceq s t then escape1 t ++ escape_preserving text' source' else inner source'
                end
              else if ceq s t then escape1 t ++ escape_preserving text' source'
              else inner source' in
            match source' with
            | e :: source'' =>
                if ceq s c_bs then
                  if ceq t c_bs then
                    if ceq e c_bs then [c_bs; c_bs] ++ escape_preserving text' source''
                    else escape1 t ++ escape_preserving text' source'
                  else if ceq e t then
                    (if needs_escaping t then [c_bs; t] else [c_bs; c_bs; t])
                    ++ escape_preserving text' source''
                  else escape1 t ++ escape_preserving text' source
                else plain
            | [] => plain
            end
        end
  end.
End Entities.

(** ** Reference style (src/serializer/mod.rs:89-164) *)

(** [source.find('[')]: a byte offset. *)
Fixpoint find_byte (c : char) (s : str) : option nat :=
  match s with
  | [] => None
  | x :: r => if ceq x c then Some 0
              else match find_byte c r with Some n => Some (utf8_len x + n) | None => None end
  end.
(** mod.rs:113-125: the loop, from the current character on; the number of
    characters before the closing bracket. *)
Fixpoint closing_bracket (depth : Z) (s : str) : option nat :=
  match s with
  | [] => None
  | x :: r =>
      if ceq x c_lbr then option_map S (closing_bracket (depth + 1)%Z r)
      else if ceq x c_rbr then
        if (depth - 1 =? 0)%Z then Some 0 else option_map S (closing_bracket (depth - 1)%Z r)
      else option_map S (closing_bracket depth r)
  end.
(** [label_content.find(']')] and the slice before it. *)
Fixpoint before_char (c : char) (s : str) : option str :=
  match s with
  | [] => None
  | x :: r => if ceq x c then Some []
              else match before_char c r with Some a => Some (x :: a) | None => None end
  end.
(** src/serializer/mod.rs:89-164 [get_reference_style_info] for the extracted
    source.  [first_bracket] is a byte offset used as a character index, as in
    the code. *)
Definition reference_style (source0 : str) : option (str * str) :=
  let source := match strip_prefix [c_bang] source0 with Some r => r | None => source0 end in
  match find_byte c_lbr source with
  | None => None
  | Some first_bracket =>
      match closing_bracket 0%Z (skipn first_bracket source) with
      | None => None
      | Some k =>
          let text_end := first_bracket + k in
          let after_close := skipn (text_end + 1) source in
          let text := normalize_whitespace (firstn (text_end - (first_bracket + 1)) (skipn (first_bracket + 1) source)) in
          if starts_with [c_lpar] after_close then None
          else
            match (match strip_prefix [c_lbr] after_close with
                   | Some label_content =>
                       match before_char c_rbr label_content with
                       | Some label => Some (normalize_whitespace label)
                       | None => None
                       end
                   | None => None
                   end) with
            | Some label => Some (text, if is_nil label then c_soh :: text else label)
            | None => Some (text, text)
            end
      end
  end.

(** ** Collectors *)
Inductive inline_event :=
| EvUse (r : reference)
| EvCode (text : str).

(** Text appended and events. *)
Definition W := res (str * list inline_event).
Definition wret (s : str) : W := Ok (s, []).
Definition wapp (a b : W) : W :=
  rbind a (fun x => rbind b (fun y => Ok (fst x ++ fst y, snd x ++ snd y))).
Definition wbind (a : W) (f : str -> W) : W :=
  rbind a (fun x => rbind (f (fst x)) (fun y => Ok (fst y, snd x ++ snd y))).
Definition wcat (l : list W) : W := fold_right wapp (wret []) l.
(** [self.add_reference(label, url, title)] *)
Definition wuse (text label url title : str) : W := Ok (text, [EvUse (mkRef label url title)]).

(** link.rs:50-54, 146-150: an optional title. *)
Definition title_suffix (title : str) : str :=
  if is_nil title then [] else lit " """ ++ title ++ [c_dq].
(** link.rs:17-41 and 113-137: the common part of [format_reference_link] and
    [format_reference_image]; [open] is "[" or "![". *)
Definition format_reference (open text label url title : str) : W :=
  match strip_prefix [c_soh] label with
  | Some actual => wuse (open ++ text ++ lit "][]") actual url title
  | None =>
      if seqb text label then wuse (open ++ text ++ [c_rbr]) label url title
      else wuse (open ++ text ++ lit "][" ++ label ++ [c_rbr]) label url title
  end.
Definition format_reference_link := format_reference [c_lbr].
Definition format_reference_image := format_reference [c_bang; c_lbr].
(** link.rs:45-56 [format_inline_link] *)
Definition format_inline_link (text url title : str) : str :=
  [c_lbr] ++ text ++ lit "](" ++ url ++ title_suffix title ++ [c_rpar].
(** link.rs:141-152 [format_inline_image] *)
Definition format_inline_image (alt url title : str) : str :=
  [c_bang; c_lbr] ++ alt ++ lit "](" ++ url ++ title_suffix title ++ [c_rpar].
(** link.rs:59-63 [format_autolink] *)
Definition format_autolink (url : str) : str := [c_lt] ++ url ++ [c_gt].
(** link.rs:70-88 [format_external_link_as_reference] *)
Definition format_external_link (text url title : str) (use_collapsed : bool) : W :=
  let normalized := replace_char c_nul [c_sp] text in
  wuse ([c_lbr] ++ normalized ++ [c_rbr] ++ (if use_collapsed then lit "[]" else [])) normalized url title.
(** link.rs:92-102 [next_sibling_starts_with_bracket] *)
Definition next_starts_with_bracket (next : option node) : bool :=
  match next with
  | Some n => match node_value n with
              | NFootnoteReference _ | NLink _ _ | NImage _ _ => true
              | _ => false
              end
  | None => false
  end.

(** inline.rs:17-37 [collect_raw_text] *)
Fixpoint raw_text (n : node) : str :=
  match n with
  | Node v _ cs =>
      match v with
      | NText t => t
      | NSoftBreak => [c_sp]
      | _ => flat_map raw_text cs
      end
  end.

Section Inline.
Variable U : Uni.
Variable ENT : str -> option str.
Variable o : Options.
Variable src : list str.

(** inline.rs:41-51 and 134-144: a text node. *)
Definition inline_text (p : sourcepos) (t : str) : W :=
  let transformed := transform_punctuation U o t in
  rbind (extract_source src p) (fun s =>
  match s with
  | Some source => wret (escape_preserving ENT transformed source)
  | None => wret (escape_text transformed)
  end).
(** inline.rs:52-67 and 169-184: a code span. *)
Definition inline_code (p : sourcepos) (literal : str) : W :=
  rbind (extract_source src p) (fun s =>
  let out :=
    match s with
    | Some source =>
        if is_valid_code_span source && negb (contains_char c_nl source) then source
        else format_code_span literal
    | None => format_code_span literal
    end in
  Ok (out, [EvCode out])).
Definition reference_style_of (p : sourcepos) : res (option (str * str)) :=
  rbind (extract_source src p) (fun s =>
  match s with Some source => Ok (reference_style source) | None => Ok None end).

(** inline.rs:39-120 [collect_text_recursive] *)
Fixpoint collect_text (n : node) : W :=
  match n with
  | Node v p cs =>
      match v with
      | NText t => inline_text p t
      | NCode literal => inline_code p literal
      | NEmph =>
          rbind (emphasis_delimiter src n) (fun d =>
          wapp (wret [d]) (wapp (wcat (map collect_text cs)) (wret [d])))
      | NStrong =>
          rbind (strong_delimiter src n) (fun d =>
          wapp (wret d) (wapp (wcat (map collect_text cs)) (wret d)))
      | NSoftBreak => wret [c_sp]
      | NLink url title =>
          rbind (reference_style_of p) (fun info =>
          match info with
          | Some (link_text, label) => format_reference_link link_text label url title
          | None =>
              let link_text := raw_text n in
              if is_external_url url then format_external_link link_text url title false
              else wret (format_inline_link link_text url title)
          end)
      | NImage url title => wret (format_inline_image (raw_text n) url title)
      | _ => wcat (map collect_text cs)
      end
  end.

(** link.rs:174, inline.rs:200: [label.strip_prefix('\x01').unwrap_or(&label)]. *)
Definition strip_marker (label : str) : str :=
  match strip_prefix [c_soh] label with Some l => l | None => label end.

(** inline.rs:132-287 [collect_inline_node]; [next] is the next sibling. *)
Fixpoint collect_inline (next : option node) (n : node) : W :=
  match n with
  | Node v p cs =>
      let kids := wcat (with_next collect_inline cs) in
      match v with
      | NText t => inline_text p t
      | NSoftBreak => wret [c_nul]
      | NLineBreak => wret [c_nl]
      | NEmph =>
          rbind (emphasis_delimiter src n) (fun d => wapp (wret [d]) (wapp kids (wret [d])))
      | NStrong =>
          rbind (strong_delimiter src n) (fun d => wapp (wret d) (wapp kids (wret d)))
      | NCode literal => inline_code p literal
      | NLink url title =>
          let contains_image := existsb is_image cs in
          let is_autolink := is_nil title && seqb (raw_text n) url in
          rbind (reference_style_of p) (fun info =>
          match info with
          | Some (text, label) =>
              if contains_image then
                let actual := strip_marker label in
                wapp (wret [c_lbr]) (wapp kids (wuse (lit "][" ++ actual ++ [c_rbr]) actual url title))
              else format_reference_link text label url title
          | None =>
              if contains_image then
                wapp (wret [c_lbr]) (wapp kids (wret (lit "](" ++ url ++ title_suffix title ++ [c_rpar])))
              else if is_autolink then wret (format_autolink url)
              else if is_external_url url then
                wbind kids (fun link_text =>
                  format_external_link link_text url title (next_starts_with_bracket next))
              else wbind kids (fun link_text => wret (format_inline_link link_text url title))
          end)
      | NImage url title =>
          rbind (reference_style_of p) (fun info =>
          match info with
          | Some (text, label) => format_reference_image text label url title
          | None => wbind kids (fun alt => wret (format_inline_image alt url title))
          end)
      | NHtmlInline html => wret html
      | NFootnoteReference name => wret (lit "[^" ++ name ++ [c_rbr])
      | _ => kids
      end
  end.
(** inline.rs:122-130 [collect_inline_content] *)
Definition inline_content (n : node) : W := wcat (with_next collect_inline (node_children n)).
End Inline.
