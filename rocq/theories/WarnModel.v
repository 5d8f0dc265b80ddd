(** Model of the undefined-reference warnings: src/serializer/document.rs:555-859.
    Regular expressions are transcribed as functions. *)
From Coq Require Import Bool Arith NArith String List.
From Verif Require Import Base CodeModel AstModel StateModel InlineModel.
Import ListNotations.

(** document.rs:682-695: the abbreviation name of a line that starts with
    an asterisk, a non-empty bracketed name and a colon. *)
Definition abbreviation (line : str) : option str :=
  match strip_prefix (lit "*[") line with
  | Some r =>
      match before_char c_rbr r with
      | Some name =>
          if negb (is_nil name) && starts_with (lit "]:") (skipn (List.length name) r) then Some name else None
      | None => None
      end
  | None => None
  end.
(** document.rs:701-717: the label of a line that, after white space, starts
    with a non-empty bracketed label, a colon and something that is not white space. *)
Definition source_definition (line : str) : option str :=
  match strip_prefix [c_lbr] (trim_start line) with
  | Some r =>
      match before_char c_rbr r with
      | Some label =>
          match strip_prefix (lit "]:") (skipn (List.length label) r) with
          | Some tail => if negb (is_nil label) && negb (is_nil (trim_start tail)) then Some label else None
          | None => None
          end
      | None => None
      end
  | None => None
  end.
Definition captures (f : str -> option str) (src : list str) : list str :=
  flat_map (fun l => match f l with Some x => [x] | None => [] end) src.

(** document.rs:732: one match of the reference pattern at the start of [s] --
    an opening bracket, a group that starts with neither bracket and runs to the
    first closing bracket, then optionally a second bracketed group.  Result: the
    whole match, the first group and the second group. *)
Definition ref_match (s : str) : option (str * str * option str) :=
  match s with
  | b :: r =>
      if ceq b c_lbr then
        match before_char c_rbr r with
        | Some ((c :: _) as g1) =>
            if ceq c c_lbr then None
            else
              let first := [c_lbr] ++ g1 ++ [c_rbr] in
              match strip_prefix [c_lbr] (skipn (List.length first) s) with
              | Some r2 =>
                  match before_char c_rbr r2 with
                  | Some g2 => Some (first ++ [c_lbr] ++ g2 ++ [c_rbr], g1, Some g2)
                  | None => Some (first, g1, None)
                  end
              | None => Some (first, g1, None)
              end
        | _ => None
        end
      else None
  | [] => None
  end.
(** [captures_iter]: leftmost, non-overlapping.  [skip] counts characters that
    belong to the previous match. *)
Fixpoint ref_matches (skip : nat) (s : str) : list (str * str * option str) :=
  match s with
  | [] => []
  | _ :: r =>
      match skip with
      | S k => ref_matches k r
      | 0 =>
          match ref_match s with
          | Some (full, g1, g2) => (full, g1, g2) :: ref_matches (List.length full - 1) r
          | None => ref_matches 0 r
          end
      end
  end.

(** document.rs:840-859 [is_escaped_in_source] *)
Definition is_escaped_in_source (src : list str) (line_num : nat) (pattern : str) : bool :=
  if (line_num =? 0) || (List.length src <? line_num) then false
  else
    let line := nth (line_num - 1) src [] in
    match find_sub pattern line with
    | Some pos =>
        (0 <? pos) && ceq (nth (pos - 1) line 0%N) c_bs
        && ((pos <? 2) || negb (ceq (nth (pos - 2) line 0%N) c_bs))
    | None => false
    end.

(** document.rs:764-809: the label of a match and its warning, if any. *)
Definition match_label (m : str * str * option str) : str :=
  let '(_, g1, g2) := m in
  match g2 with
  | Some l => if is_nil l then g1 else l
  | None => g1
  end.
Definition match_warning (src abbrs defs : list str) (line_num : nat) (m : str * str * option str)
  : list warning :=
  let label := match_label m in
  if is_nil label then []
  else if starts_with [c_caret] label then []
  else if starts_with [c_bang] label then []
  else if existsb (seqb label) abbrs then []
  else if existsb (seqb label) defs then []
  else if is_escaped_in_source src line_num (fst (fst m)) then []
  else [mkWarning line_num (lit "undefined reference link: [" ++ label ++ [c_rbr])].

(** document.rs:747-836 [walk_ast_for_undefined_refs] *)
Fixpoint undefined_refs (src abbrs defs : list str) (n : node) : list warning :=
  match n with
  | Node v p cs =>
      match v with
      | NCodeBlock _ _ | NCode _ | NHtmlBlock _ | NHtmlInline _ => []
      | NText t =>
          flat_map (match_warning src abbrs defs (start_line p)) (ref_matches 0 t)
          ++ flat_map (undefined_refs src abbrs defs) cs
      | _ => flat_map (undefined_refs src abbrs defs) cs
      end
  end.

(** A line range; [None] is [usize::MAX]. *)
Definition range := (nat * option nat)%type.

(** document.rs:637, 654: [start.line - 1].  With overflow checks a line 0
    panics, without them it wraps to [usize::MAX]. *)
Definition line_before (checks : bool) (l : nat) : res (option nat) :=
  match l with
  | 0 => if checks then Panic else Ok None
  | S k => Ok (Some k)
  end.

Definition directive_of (n : node) : option directive :=
  match node_value n with NHtmlBlock l => parse_directive l | _ => None end.
Definition is_section_heading (n : node) : bool :=
  match node_value n with NHeading l => l <=? 2 | _ => false end.
Definition is_enable (n : node) : bool :=
  match directive_of n with Some Enable => true | _ => false end.
(** The line before the first of [rest] satisfying [p], or [usize::MAX]. *)
Definition end_before (checks : bool) (p : node -> bool) (rest : list node) : res (option nat) :=
  match find p rest with
  | Some n => line_before checks (start_line (node_pos n))
  | None => Ok None
  end.

(** document.rs:602-668, one child with the children after it. *)
Definition directive_ranges (checks : bool) (child : node) (rest : list node) : res (list range) :=
  match directive_of child with
  | None => Ok []
  | Some d =>
      let after := end_line (node_pos child) + 1 in
      match d with
      | DisableFile => Ok [(after, None)]
      | DisableNextLine =>
          match rest with
          | next :: _ =>
              match directive_of next with
              | Some _ => Ok []
              | None => Ok [(start_line (node_pos next), Some (end_line (node_pos next)))]
              end
          | [] => Ok []
          end
      | DisableNextSection => rbind (end_before checks is_section_heading rest) (fun e => Ok [(after, e)])
      | Disable => rbind (end_before checks is_enable rest) (fun e => Ok [(after, e)])
      | Enable | ProperNouns _ | CommonNouns _ => Ok []
      end
  end.
(** document.rs:598-671 [collect_disabled_line_ranges] *)
Fixpoint disabled_ranges (checks : bool) (children : list node) : res (list range) :=
  match children with
  | [] => Ok []
  | c :: r =>
      rbind (directive_ranges checks c r) (fun a =>
      rbind (disabled_ranges checks r) (fun b => Ok (a ++ b)))
  end.
(** document.rs:674-678 [is_line_in_disabled_ranges] *)
Definition in_ranges (line : nat) (ranges : list range) : bool :=
  existsb (fun r => (fst r <=? line) && match snd r with Some e => line <=? e | None => true end) ranges.

(** document.rs:563-592 [check_undefined_references_ast]: the warnings added. *)
Definition check_undefined (checks : bool) (src : list str) (doc : node) : res (list warning) :=
  if is_nil src then Ok []
  else
    rbind (disabled_ranges checks (node_children doc)) (fun ranges =>
    Ok (filter (fun w => negb (in_ranges (warn_line w) ranges))
         (undefined_refs src (captures abbreviation src) (captures source_definition src) doc))).
