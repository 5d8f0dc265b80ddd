(** Transcription of [src/serializer/heading.rs] (sentence case) and of the
    text-writing half of [serialize_heading] ([src/serializer/document.rs]
    421-458). *)
From Coq Require Import Bool Arith NArith List.
From Verif Require Import Base OptsModel.
Import ListNotations.

Section Heading.
(** The Unicode oracles, and [PROPER_NOUNS]: the table generated by [build.rs]
    31-50 (canonical form, lowercase key).  Its contents are a parameter. *)
Variable U : Uni.
Variable PN : list (str * str).

(** [enum Token] (heading.rs 62-70). *)
Inductive token :=
| CodeSpan (content : str)
| Quote (content : str) (is_double : bool)
| TextTok (content : str).

(** [Option<char>] neighbours. *)
Definition opt_alnum (c : option char) : bool :=
  match c with Some x => u_alnum U x | None => false end.
Definition opt_alpha (c : option char) : bool :=
  match c with Some x => u_alpha U x | None => false end.
Definition opt_opener (c : option char) : bool :=
  match c with Some x => is_ws x || ceq x c_lpar || ceq x c_lbr | None => false end.
Definition c_s : char := 115%N.

(** Decade abbreviation check of heading.rs 92-106, on the characters after
    the quote. *)
Definition decade_ahead (rest : str) : bool :=
  match rest with
  | a :: b :: c :: _ => is_ascii_digit a && is_ascii_digit b && ceq c c_s
  | _ => false
  end.

(** [next_is_s_boundary] (heading.rs 113-115). *)
Definition s_boundary (rest : str) : bool :=
  match rest with
  | a :: b :: _ => ceq a c_s && negb (u_alnum U b)
  | [a] => ceq a c_s
  | [] => false
  end.

(** What one straight single quote becomes, and the new [open_single_quote]
    (heading.rs 91-157).  [prev] is [chars[i - 1]], [rest] is
    [chars[i + 1..]]. *)
Definition single_quote (prev : option char) (open : bool) (rest : str) : char * bool :=
  if decade_ahead rest && negb (opt_alnum prev) then (c_sq, open)
  else if opt_alpha prev && (opt_alpha (hd_error rest) || s_boundary rest) then (c_sq, open)
  else if opt_alpha prev && match rest with x :: _ => is_ws x | [] => false end && negb open
       then (c_sq, open)
  else if opt_opener prev && opt_alnum (hd_error rest) then (c_lsq, true)
  else if match prev with None => true | Some _ => false end && opt_alnum (hd_error rest)
       then (c_lsq, true)
  else (c_rsq, false).

(** What one straight double quote becomes (heading.rs 158-178). *)
Definition double_quote (prev : option char) (rest : str) : char :=
  if opt_opener prev && opt_alnum (hd_error rest) then c_ldq
  else if match prev with None => true | Some _ => false end && opt_alnum (hd_error rest) then c_ldq
  else c_rdq.

(** [normalize_quotes] (heading.rs 79-187). *)
Fixpoint normalize_quotes_from (prev : option char) (open : bool) (s : str) : str :=
  match s with
  | [] => []
  | c :: r =>
      if ceq c c_sq then
        let '(q, open') := single_quote prev open r in
        q :: normalize_quotes_from (Some c) open' r
      else if ceq c c_dq then double_quote prev r :: normalize_quotes_from (Some c) open r
      else c :: normalize_quotes_from (Some c) open r
  end.
Definition normalize_quotes (s : str) : str := normalize_quotes_from None false s.

(** A [Text] token, unless the accumulated text is empty. *)
Definition text_tok (cur : str) : list token :=
  if is_nil cur then [] else [TextTok (rev cur)].

(** [tokenize_quotes] (heading.rs 228-295); [tokenize] (298-300) is the same
    function.  [quote] is the kind and (reversed) content of the quotation
    being collected, [cur] the (reversed) pending text. *)
Fixpoint tokenize_quotes_from (quote : option (bool * str)) (cur : str) (s : str) : list token :=
  match s with
  | [] =>
      match quote with
      | None => text_tok cur
      | Some (dbl, q) => [TextTok ((if dbl then c_ldq else c_lsq) :: rev q)]
      end
  | c :: r =>
      match quote with
      | Some (dbl, q) =>
          if ceq c (if dbl then c_rdq else c_rsq)
          then Quote (rev q) dbl :: tokenize_quotes_from None [] r
          else tokenize_quotes_from (Some (dbl, c :: q)) cur r
      | None =>
          if ceq c c_ldq then text_tok cur ++ tokenize_quotes_from (Some (true, [])) [] r
          else if ceq c c_lsq then text_tok cur ++ tokenize_quotes_from (Some (false, [])) [] r
          else tokenize_quotes_from None (c :: cur) r
      end
  end.
Definition tokenize_quotes (s : str) : list token := tokenize_quotes_from None [] s.

(** The tokens of one stretch of text outside code spans (heading.rs 198-202,
    219-222). *)
Definition text_tokens (cur : str) : list token :=
  if is_nil cur then [] else tokenize_quotes (normalize_quotes (rev cur)).

(** [tokenize_with_code_spans] (heading.rs 190-225); [code] is the (reversed)
    code span being collected. *)
Fixpoint tokenize_from (code : option str) (cur : str) (s : str) : list token :=
  match s with
  | [] =>
      match code with
      | Some k => [CodeSpan (rev k)]
      | None => text_tokens cur
      end
  | c :: r =>
      match code with
      | Some k =>
          if ceq c c_bt then CodeSpan (rev (c :: k)) :: tokenize_from None [] r
          else tokenize_from (Some (c :: k)) cur r
      | None =>
          if ceq c c_bt then text_tokens cur ++ tokenize_from (Some [c_bt]) [] r
          else tokenize_from None (c :: cur) r
      end
  end.
Definition tokenize_with_code_spans (s : str) : list token := tokenize_from None [] s.

(** [collect_multiword_proper_nouns] (heading.rs 358-389): the stable sort by
    decreasing byte length is an insertion sort. *)
Fixpoint insert_noun (x : str * str) (l : list (str * str)) : list (str * str) :=
  match l with
  | [] => [x]
  | y :: r => if byte_len (fst y) <? byte_len (fst x) then x :: l else y :: insert_noun x r
  end.
Definition multiword_of (common_lower : list str) (nouns : list str) : list (str * str) :=
  flat_map (fun canonical =>
    if contains_char c_sp canonical then
      let key := u_lower_str U canonical in
      if existsb (seqb key) common_lower then [] else [(canonical, key)]
    else []) nouns.
Definition collect_multiword (user common : list str) : list (str * str) :=
  let common_lower := map (u_lower_str U) common in
  fold_left (fun acc x => insert_noun x acc)
    (multiword_of common_lower (map fst PN) ++ multiword_of common_lower user) [].

(** [normalize_apostrophes_for_matching], [matches_ignoring_apostrophes]
    (heading.rs 393-402). *)
Definition normalize_apostrophes (s : str) : str := replace_char c_rsq [c_sq] s.
Definition matches_ignoring_apostrophes (text pattern : str) : bool :=
  seqb (normalize_apostrophes (u_lower_str U text)) (normalize_apostrophes (u_lower_str U pattern)).

(** One pass of the inner [for] loop (heading.rs 425-488).  [prev] is the
    character before the position, [pos] its distance from [search_from],
    [last] is [match_end_byte - search_from] (in characters), [pre] the
    (reversed) characters skipped since [search_from]. *)
Inductive scan_result :=
| Found (pre sub post : str)
| Missing (last : nat).
Fixpoint scan_noun (key : str) (n : nat) (prev : option char) (pos last : nat) (pre : str)
    (rest : str) : scan_result :=
  match rest with
  | [] => Missing last
  | c :: r =>
      let sub := firstn n rest in
      if negb (List.length sub =? n) then Missing last
      else if matches_ignoring_apostrophes sub key then
        let post := skipn n rest in
        if negb (opt_alnum prev) && negb (opt_alnum (hd_error post))
        then Found (rev pre) sub post
        else scan_noun key n (Some c) (S pos) (pos + n) (c :: pre) r
      else scan_noun key n (Some c) (S pos) last (c :: pre) r
  end.

(** Possessive marker directly after a match (heading.rs 460-465): the marker
    and what follows it. *)
Definition take_possessive (post : str) : str * str :=
  match strip_prefix [c_sq; c_s] post with
  | Some r => ([c_sq; c_s], r)
  | None =>
      match strip_prefix [c_rsq; c_s] post with
      | Some r => ([c_rsq; c_s], r)
      | None => ([], post)
      end
  end.

(** [format!("\u{FFFD}{}\u{FFFD}", n)] (heading.rs 468). *)
Definition placeholder (n : nat) : str := c_fffd :: dec n ++ [c_fffd].

(** The [loop] of heading.rs 419-497 for one noun.  [before] is
    [result[..search_from]], [rest] is [result[search_from..]]; [reps] are the
    replacements so far, so [placeholder_counter] is its length.  [rest]
    becomes shorter in every round ([noun_loop_fuel] in HeadingProof), so
    [fuel] greater than its length is enough. *)
Definition last_char (s : str) : option char := hd_error (rev s).
Fixpoint noun_loop (fuel : nat) (canonical key : str) (before rest : str)
    (reps : list (str * str)) : str * list (str * str) :=
  match fuel with
  | 0 => (before ++ rest, reps)
  | S k =>
      match scan_noun key (List.length key) (last_char before) 0 0 [] rest with
      | Found pre sub post =>
          let '(poss, post') := take_possessive post in
          let ph := placeholder (List.length reps) in
          noun_loop k canonical key (before ++ pre ++ ph) post' (reps ++ [(ph, canonical ++ poss)])
      | Missing last =>
          if 0 <? last then noun_loop k canonical key (before ++ firstn last rest) (skipn last rest) reps
          else (before ++ rest, reps)
      end
  end.

(** [replace_multiword_with_placeholders] (heading.rs 406-501). *)
Definition replace_multiword (text : str) (nouns : list (str * str)) : str * list (str * str) :=
  fold_left (fun st noun =>
    noun_loop (S (List.length (fst st))) (fst noun) (snd noun) [] (fst st) (snd st))
    nouns (text, []).

(** [restore_placeholders] (heading.rs 504-510). *)
Definition restore_placeholders (text : str) (reps : list (str * str)) : str :=
  fold_left (fun acc r => replace_sub (fst r) (snd r) acc) reps text.

(** [is_first_person_pronoun_i] (heading.rs 673-700). *)
Definition c_i : char := 105%N.
Definition c_I : char := 73%N.
Definition pronoun_i (word : str) : option str :=
  match word with
  | [] => None
  | [c] => if eq_ignore_ascii_case c c_i then Some [c_I] else None
  | c :: q :: r =>
      if eq_ignore_ascii_case c c_i && (ceq q c_sq || ceq q c_rsq)
      then Some (c_I :: q :: map ascii_lower r) else None
  end.

(** [is_acronym] (heading.rs 751-797).  The [while] loop: number of upper-case
    letters and whether a letter is followed by a period. *)
Fixpoint acronym_scan (s : str) : nat * bool :=
  match s with
  | [] => (0, false)
  | c :: r =>
      if u_alpha U c then
        let here := if u_upper U c then 1 else 0 in
        match r with
        | d :: r' =>
            if ceq d c_dot then let '(n, _) := acronym_scan r' in (here + n, true)
            else let '(n, p) := acronym_scan r in (here + n, p)
        | [] => (here, false)
        end
      else acronym_scan r
  end.
Definition is_acronym (word : str) : bool :=
  match word with
  | a :: b :: _ =>
      if u_upper U a && u_alpha U a && u_upper U b && u_alpha U b then true
      else
        let letters := filter (u_alpha U) word in
        if List.length letters <? 2 then false
        else let '(n, period) := acronym_scan word in period && (2 <=? List.length letters) && (1 <=? n)
  | _ => false
  end.

(** [find_proper_noun] (heading.rs 804-869). *)
Definition strip_possessive (w : str) : str * str :=
  match strip_suffix [c_sq; c_s] w with
  | Some r => (r, [c_sq; c_s])
  | None =>
      match strip_suffix [c_rsq; c_s] w with
      | Some r => (r, [c_rsq; c_s])
      | None => (w, [])
      end
  end.
Definition find_proper_noun (user common : list str) (word : str) : option str :=
  let is_lead := fun c => negb (u_alnum U c || ceq c c_at) in
  let leading := take_while is_lead word in
  let body := drop_while is_lead word in
  let '(stem, poss) := strip_possessive body in
  let core := drop_while_end (fun c => negb (u_alnum U c)) stem in
  let trailing := skipn (List.length core) stem in
  let lower := u_lower_str U core in
  if is_nil core || negb (existsb (u_alpha U) core) then None
  else if existsb (fun n => seqb (u_lower_str U n) lower) common then None
  else
    match find (fun n => seqb (u_lower_str U n) lower) user with
    | Some n => Some (leading ++ n ++ trailing ++ poss)
    | None =>
        match find (fun p => seqb (snd p) lower) PN with
        | Some p => Some (leading ++ fst p ++ trailing ++ poss)
        | None => None
        end
    end.

(** [capitalize_first] (heading.rs 872-882). *)
Definition capitalize_first (word : str) : str :=
  match word with
  | [] => []
  | c :: r => u_upper_chr U c ++ u_lower_str U r
  end.

(** [process_word_simple] (heading.rs 703-748). *)
Definition all_upper (word : str) : bool :=
  let letters := filter (u_alpha U) word in
  negb (is_nil letters) && forallb (u_upper U) letters.
Definition process_word_simple (user common : list str) (is_first : bool) (word : str) : str :=
  if is_nil word then []
  else if contains_char c_fffd word then word
  else if all_upper word then word
  else if is_acronym word then word
  else
    match pronoun_i word with
    | Some w => w
    | None =>
        match find_proper_noun user common word with
        | Some w => w
        | None => if is_first then capitalize_first word else u_lower_str U word
        end
    end.

(** [process_word] (heading.rs 620-668). *)
Definition process_parts (user common : list str) (is_first : bool) (parts : list str) : list str :=
  match parts with
  | [] => []
  | p :: ps => process_word_simple user common is_first p :: map (process_word_simple user common false) ps
  end.
Definition process_word (user common : list str) (is_first : bool) (word : str) : str :=
  let whole :=
    if contains_char c_dash word || contains_char c_slash word
    then find_proper_noun user common word else None in
  match whole with
  | Some w => w
  | None =>
      if contains_char c_dash word
      then join [c_dash] (process_parts user common is_first (split_on c_dash word))
      else if contains_char c_slash word
      then join [c_slash] (process_parts user common is_first (split_on c_slash word))
      else process_word_simple user common is_first word
  end.

(** Step 3 of [process_text] (heading.rs 526-613).  [cur] is the (reversed)
    current word, [count] is [word_count], [first] is [*is_first_word].  The
    result is the text and the final [*is_first_word]. *)
Definition is_delim (c : char) : bool :=
  ceq c c_colon || ceq c c_semi || ceq c c_emdash || ceq c c_endash.
Definition should_capitalize (count : nat) (first after : bool) (word : str) : bool :=
  if (count =? 0) && first then true
  else if after then match word with c :: _ => u_upper U c | [] => false end
  else false.
Fixpoint process_chars (user common : list str) (cur : str) (count : nat) (first after : bool)
    (s : str) : str * bool :=
  match s with
  | [] =>
      if is_nil cur then ([], first)
      else (process_word user common (should_capitalize count first after (rev cur)) (rev cur), false)
  | c :: r =>
      if is_ws c then
        if is_nil cur then
          let '(out, f) := process_chars user common [] count first after r in (c :: out, f)
        else
          let w := process_word user common (should_capitalize count first after (rev cur)) (rev cur) in
          let '(out, f) := process_chars user common [] (S count) false false r in (w ++ c :: out, f)
      else if is_delim c then
        if is_nil cur then
          let '(out, f) := process_chars user common [] count first true r in (c :: out, f)
        else
          let w := process_word user common ((count =? 0) && first) (rev cur) in
          let '(out, f) := process_chars user common [] (S count) false true r in (w ++ c :: out, f)
      else process_chars user common (c :: cur) count first after r
  end.

(** [process_text] (heading.rs 513-617): the text and the final
    [*is_first_word]. *)
Definition process_text (user common : list str) (first : bool) (text : str) : str * bool :=
  let '(marked, reps) := replace_multiword text (collect_multiword user common) in
  let '(out, f) := process_chars user common [] 0 first false marked in
  (restore_placeholders out reps, f).

(** [process_quoted_text] (heading.rs 303-353).  A nested quotation is shorter
    than the one around it, so a [fuel] greater than the length of [content]
    is enough ([process_quoted_fuel] in HeadingProof). *)
Fixpoint process_quoted (fuel : nat) (user common : list str) (content : str) (dbl : bool) : str :=
  match fuel with
  | 0 => []
  | S k =>
      let opening := if dbl then c_ldq else c_lsq in
      let closing := if dbl then c_rdq else c_rsq in
      if is_nil content then [opening; closing]
      else
        let body :=
          match find (u_alpha U) content with
          | Some a =>
              if u_upper U a then
                fst (fold_left (fun st t =>
                  match t with
                  | CodeSpan x => (fst st ++ x, snd st)
                  | Quote x d => (fst st ++ process_quoted k user common x d, false)
                  | TextTok x =>
                      let '(out, f) := process_text user common (snd st) x in (fst st ++ out, f)
                  end) (tokenize_quotes content) ([], true))
              else content
          | None => content
          end in
        opening :: body ++ [closing]
  end.

(** [to_sentence_case] (heading.rs 18-59). *)
Definition sentence_step (user common : list str) (st : str * bool) (t : token) : str * bool :=
  match t with
  | CodeSpan x => (fst st ++ x, false)
  | Quote x d => (fst st ++ process_quoted (S (List.length x)) user common x d, snd st)
  | TextTok x => let '(out, f) := process_text user common (snd st) x in (fst st ++ out, f)
  end.
Definition to_sentence_case (user common : list str) (text : str) : str :=
  if is_nil text then []
  else fst (fold_left (sentence_step user common) (tokenize_with_code_spans text) ([], true)).

(** [serialize_heading] (document.rs 421-458) after [collect_text]: what is
    pushed for heading text [text].  [nouns] and [commons] are the nouns set by
    directives so far. *)
Definition heading_output (o : Options) (nouns commons : list str) (level : nat) (text : str) : str :=
  let text' :=
    if heading_sentence_case o
    then to_sentence_case (heading_proper_nouns o ++ nouns) (heading_common_nouns o ++ commons) text
    else text in
  if (level =? 1) && setext_h1 o then text' ++ [c_nl] ++ repc c_eq (u_width U text') ++ [c_nl]
  else if (level =? 2) && setext_h2 o then text' ++ [c_nl] ++ repc c_dash (u_width U text') ++ [c_nl]
  else repc c_hash level ++ [c_sp] ++ text' ++ [c_nl].

End Heading.
