(** Independent specifications taken from the CommonMark and GFM documents.
    Nothing here refers to the model of hongdown. *)
From Coq Require Import Bool Arith NArith List.
From Verif Require Import Base.
Import ListNotations.

(** ** Backslash escapes (CommonMark 2.4)

    [cm_scan s] reads [s] as inline text: each item is a character together
    with a flag saying whether it was backslash-escaped.  A backslash before
    an ASCII punctuation character escapes it; any other backslash is a
    literal backslash. *)
Fixpoint cm_scan (s : str) : list (bool * char) :=
  match s with
  | [] => []
  | c :: rest =>
      if ceq c c_bs then
        match rest with
        | d :: rest' =>
            if is_ascii_punct d then (true, d) :: cm_scan rest' else (false, c) :: cm_scan rest
        | [] => [(false, c)]
        end
      else (false, c) :: cm_scan rest
  end.

(** The text a reader sees. *)
Definition cm_unescape (s : str) : str := map snd (cm_scan s).

(** A character with syntactic force in [s]: an unescaped occurrence. *)
Definition active (c : char) (s : str) : Prop := In (false, c) (cm_scan s).

(** ** Code spans (CommonMark 6.1)

    [closing_run n s]: reading [s] after an opening run of [n] backticks, find
    the first maximal run of exactly [n] backticks; returns the raw content
    and what follows the run. *)
Definition count_ticks (s : str) : nat := length (take_while (ceq c_bt) s).

Fixpoint closing_run (fuel n : nat) (s : str) : option (str * str) :=
  match fuel with
  | 0 => None
  | S k =>
      match s with
      | [] => None
      | c :: r =>
          if ceq c c_bt then
            let m := count_ticks s in
            if m =? n then Some ([], skipn m s)
            else match closing_run k n (skipn m s) with
                 | Some (content, rest) => Some (firstn m s ++ content, rest)
                 | None => None
                 end
          else match closing_run k n r with
               | Some (content, rest) => Some (c :: content, rest)
               | None => None
               end
      end
  end.

(** Content normalisation: line endings become spaces; if the content both
    begins and ends with a space and is not all spaces, one space is removed
    from each end. *)
Definition nl_to_sp (s : str) : str := map (fun c => if ceq c c_nl then c_sp else c) s.
Definition all_spaces (s : str) : bool := forallb (ceq c_sp) s.
Definition strip_one (s : str) : str :=
  match s with
  | a :: r =>
      match rev r with
      | b :: r' =>
          if ceq a c_sp && ceq b c_sp && negb (all_spaces s) then rev r' else s
      | [] => s
      end
  | [] => s
  end.

(** Parse a code span at the start of [s]. *)
Definition parse_code_span (s : str) : option (str * str) :=
  let n := count_ticks s in
  if n =? 0 then None
  else match closing_run (S (length s)) n (skipn n s) with
       | Some (raw, rest) => Some (strip_one (nl_to_sp raw), rest)
       | None => None
       end.

(** ** GFM table cells

    Two readings of "escaped pipe": by backslash parity (the prose of the GFM
    document) and by the immediately preceding character (the cmark-gfm
    scanner).  [pipes_parity] and [pipes_prev] count the delimiter pipes. *)
Fixpoint pipes_parity (escaped : bool) (s : str) : nat :=
  match s with
  | [] => 0
  | c :: r =>
      if escaped then pipes_parity false r
      else if ceq c c_bs then pipes_parity true r
      else (if ceq c c_pipe then 1 else 0) + pipes_parity false r
  end.
Fixpoint pipes_prev (after_backslash : bool) (s : str) : nat :=
  match s with
  | [] => 0
  | c :: r =>
      (if ceq c c_pipe && negb after_backslash then 1 else 0) + pipes_prev (ceq c c_bs) r
  end.

(** Before inline parsing a GFM reader replaces each backslash-pipe by a pipe. *)
Fixpoint unescape_pipes (s : str) : str :=
  match s with
  | [] => []
  | c :: r =>
      match r with
      | d :: _ => if ceq c c_bs && ceq d c_pipe then unescape_pipes r else c :: unescape_pipes r
      | [] => [c]
      end
  end.

(** ** Inline links (CommonMark 6.3), reduced to the bracket stack

    Reading left to right, an unescaped '[' pushes an opener; an unescaped ']'
    pops one, and forms an inline link if it popped one and the next
    character is an unescaped '(' (the destination is assumed well formed). *)
Fixpoint forms_link (depth : nat) (s : list (bool * char)) : bool :=
  match s with
  | [] => false
  | (esc, c) :: r =>
      if esc then forms_link depth r
      else if ceq c c_lbr then forms_link (S depth) r
      else if ceq c c_rbr then
        match depth with
        | 0 => forms_link 0 r
        | S d =>
            match r with
            | (false, p) :: _ => if ceq p c_lpar then true else forms_link d r
            | _ => forms_link d r
            end
        end
      else forms_link depth r
  end.
