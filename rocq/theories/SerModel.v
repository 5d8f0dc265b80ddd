(** Model of the serializer: src/serializer/mod.rs, block.rs, list.rs,
    document.rs and the entry points of src/lib.rs. *)
From Coq Require Import Bool Arith NArith String List.
From Verif Require Import Base EscapeModel OptsModel PunctModel WrapModel CodeModel TableModel
  HeadingModel AstModel StateModel InlineModel WarnModel.
Import ListNotations.

(** ** State (src/serializer/state.rs:235-288)

    The fields of [Serializer] are grouped; [options], [source_lines],
    [source_ends_with_newline] and the callback never change and are section
    variables below. *)

(** The context: where in the tree the serializer is. *)
Record ctx := mkCtx {
  list_item_index : nat;
  list_type : option list_kind;
  list_tight : bool;
  in_block_quote : bool;
  blockquote_prefix : str;
  list_depth : nat;
  in_description_details : bool;
  description_details_first_list : bool;
  ordered_list_max_items : nat;
  list_item_indent : str;
  blockquote_outer_indent : str;
  blockquote_entry_list_depth : nat
}.

(** state.rs:121-139 [FootnoteSet].  An [IndexMap] is its list of entries in
    insertion order, a [HashSet] or [HashMap] a list. *)
Record footnote_set := mkFootnotes {
  f_pending : list (str * footnote);
  f_emitted : list str;
  f_reference_lines : list (str * nat);
  f_collecting : bool;
  f_current_line : nat;
  f_pending_references : list (str * (reference * nat))
}.

(** Ghost: what has been written or referred to, in order.  Nothing reads it. *)
Inductive event :=
| Use (r : reference)                (* a reference label was put into text *)
| Def (r : reference)                (* a reference definition was written *)
| Footnote (f : footnote)            (* a footnote definition was written *)
| Code (text : str).                 (* code was written *)

Record st := mkSt {
  output : str;
  cx : ctx;
  pending_references : list (str * reference);
  emitted_references : list str;
  footnotes : footnote_set;
  skip : skip_mode;
  warnings : list warning;
  proper_nouns : list str;
  common_nouns : list str;
  calls : list call;                 (* ghost: formatter calls made *)
  trace : list event                 (* ghost *)
}.

(** state.rs:291-323 [Serializer::new] *)
Definition init_ctx : ctx := mkCtx 0 None true false [] 0 false false 0 [] [] 0.
Definition init_footnotes : footnote_set := mkFootnotes [] [] [] false 0 [].
Definition init_st : st := mkSt [] init_ctx [] [] init_footnotes SkipNone [] [] [] [] [].

(** An action of the serializer. *)
Definition act := st -> res st.
Definition nop : act := fun s => Ok s.
Definition seqa (a b : act) : act := fun s => rbind (a s) b.
Notation "a ;; b" := (seqa a b) (at level 61, right associativity).
Definition panic : act := fun _ => Panic.
Definition all (l : list act) : act := fold_right seqa nop l.

(** Field updates. *)
Definition set_output (x : str) (s : st) : st :=
  mkSt x (cx s) (pending_references s) (emitted_references s) (footnotes s) (skip s) (warnings s)
       (proper_nouns s) (common_nouns s) (calls s) (trace s).
Definition set_cx (x : ctx) (s : st) : st :=
  mkSt (output s) x (pending_references s) (emitted_references s) (footnotes s) (skip s) (warnings s)
       (proper_nouns s) (common_nouns s) (calls s) (trace s).
Definition set_pending (x : list (str * reference)) (s : st) : st :=
  mkSt (output s) (cx s) x (emitted_references s) (footnotes s) (skip s) (warnings s)
       (proper_nouns s) (common_nouns s) (calls s) (trace s).
Definition set_emitted (x : list str) (s : st) : st :=
  mkSt (output s) (cx s) (pending_references s) x (footnotes s) (skip s) (warnings s)
       (proper_nouns s) (common_nouns s) (calls s) (trace s).
Definition set_footnotes (x : footnote_set) (s : st) : st :=
  mkSt (output s) (cx s) (pending_references s) (emitted_references s) x (skip s) (warnings s)
       (proper_nouns s) (common_nouns s) (calls s) (trace s).
Definition set_skip (x : skip_mode) (s : st) : st :=
  mkSt (output s) (cx s) (pending_references s) (emitted_references s) (footnotes s) x (warnings s)
       (proper_nouns s) (common_nouns s) (calls s) (trace s).
Definition set_warnings (x : list warning) (s : st) : st :=
  mkSt (output s) (cx s) (pending_references s) (emitted_references s) (footnotes s) (skip s) x
       (proper_nouns s) (common_nouns s) (calls s) (trace s).
Definition set_nouns (p c : list str) (s : st) : st :=
  mkSt (output s) (cx s) (pending_references s) (emitted_references s) (footnotes s) (skip s) (warnings s)
       p c (calls s) (trace s).
Definition set_calls (x : list call) (s : st) : st :=
  mkSt (output s) (cx s) (pending_references s) (emitted_references s) (footnotes s) (skip s) (warnings s)
       (proper_nouns s) (common_nouns s) x (trace s).
Definition set_trace (x : list event) (s : st) : st :=
  mkSt (output s) (cx s) (pending_references s) (emitted_references s) (footnotes s) (skip s) (warnings s)
       (proper_nouns s) (common_nouns s) (calls s) x.

Definition set_index (x : nat) (c : ctx) : ctx :=
  mkCtx x (list_type c) (list_tight c) (in_block_quote c) (blockquote_prefix c) (list_depth c)
        (in_description_details c) (description_details_first_list c) (ordered_list_max_items c)
        (list_item_indent c) (blockquote_outer_indent c) (blockquote_entry_list_depth c).
Definition set_item_indent (x : str) (c : ctx) : ctx :=
  mkCtx (list_item_index c) (list_type c) (list_tight c) (in_block_quote c) (blockquote_prefix c) (list_depth c)
        (in_description_details c) (description_details_first_list c) (ordered_list_max_items c)
        x (blockquote_outer_indent c) (blockquote_entry_list_depth c).
Definition set_in_details (x : bool) (c : ctx) : ctx :=
  mkCtx (list_item_index c) (list_type c) (list_tight c) (in_block_quote c) (blockquote_prefix c) (list_depth c)
        x (description_details_first_list c) (ordered_list_max_items c)
        (list_item_indent c) (blockquote_outer_indent c) (blockquote_entry_list_depth c).
Definition set_first_list (x : bool) (c : ctx) : ctx :=
  mkCtx (list_item_index c) (list_type c) (list_tight c) (in_block_quote c) (blockquote_prefix c) (list_depth c)
        (in_description_details c) x (ordered_list_max_items c)
        (list_item_indent c) (blockquote_outer_indent c) (blockquote_entry_list_depth c).

(** Reading the state. *)
Definition get {A} (f : st -> A) (k : A -> act) : act := fun s => k (f s) s.
Definition upd (f : st -> st) : act := fun s => Ok (f s).
Definition updc (f : ctx -> ctx) : act := upd (fun s => set_cx (f (cx s)) s).
(** [self.output.push_str] *)
Definition emit (x : str) : act := upd (fun s => set_output (output s ++ x) s).
Definition log (e : event) : act := upd (fun s => set_trace (trace s ++ [e]) s).

(** [IndexMap::insert]: an existing key keeps its place. *)
Fixpoint imap_insert {A} (k : str) (v : A) (m : list (str * A)) : list (str * A) :=
  match m with
  | [] => [(k, v)]
  | (k', v') :: r => if seqb k k' then (k', v) :: r else (k', v') :: imap_insert k v r
  end.
Definition mem (k : str) (l : list str) : bool := existsb (seqb k) l.
(** [HashSet::insert] *)
Definition set_insert (k : str) (l : list str) : list str := if mem k l then l else k :: l.

(** state.rs:448-459 [add_reference] *)
Definition add_reference (r : reference) : act :=
  upd (fun s =>
    let f := footnotes s in
    let s' := set_trace (trace s ++ [Use r]) s in
    if f_collecting f then
      set_footnotes (mkFootnotes (f_pending f) (f_emitted f) (f_reference_lines f) (f_collecting f)
        (f_current_line f)
        (imap_insert (ref_label r) (r, f_current_line f) (f_pending_references f))) s'
    else set_pending (imap_insert (ref_label r) r (pending_references s)) s').

(** What an inline collector did, applied to the state. *)
Definition do_event (e : inline_event) : act :=
  match e with
  | EvUse r => add_reference r
  | EvCode x => log (Code x)
  end.
Definition inline (w : W) (k : str -> act) : act :=
  match w with
  | Panic => panic
  | Ok (x, evs) => all (map do_event evs) ;; k x
  end.

(** Code blocks: text, warnings and formatter calls. *)
Definition code_act (f : nat -> str * effects) : act :=
  get (fun s => List.length (calls s)) (fun n =>
  let '(text, eff) := f n in
  upd (fun s => set_calls (calls s ++ eff_calls eff) (set_warnings (warnings s ++ eff_warnings eff) s)) ;;
  log (Code text) ;;
  emit text).

(** ** Footnotes and references *)

(** mod.rs:168-176 [ensure_blank_line] (also document.rs:281-287) *)
Definition ensure_blank_line : act :=
  get output (fun out =>
    if ends_with [c_nl; c_nl] out then nop
    else if ends_with [c_nl] out then emit [c_nl]
    else emit [c_nl; c_nl]).

(** mod.rs:243-246 [extract_numeric_label] *)
Definition extract_numeric_label (label : str) : option N :=
  parse_uint u64_max (match strip_prefix [c_hash] label with Some r => r | None => label end).
(** mod.rs:344-346 [extract_numeric_footnote_name] *)
Definition extract_numeric_footnote_name (name : str) : option N := parse_uint u64_max name.

(** [sort_by_key(|(num, _)| *num)] is a stable sort; insertion from the right
    keeps equal keys in order. *)
Fixpoint insert_by_key {A} (x : N * A) (l : list (N * A)) : list (N * A) :=
  match l with
  | [] => [x]
  | y :: r => if (fst x <=? fst y)%N then x :: l else y :: insert_by_key x r
  end.
Definition sort_by_key {A} (l : list (N * A)) : list (N * A) := fold_right insert_by_key [] l.

(** mod.rs:198-239 and 301-340: the order in which a flush writes its items. *)
Definition numeric_of {A} (num : A -> option N) (l : list A) : list (N * A) :=
  flat_map (fun x => match num x with Some n => [(n, x)] | None => [] end) l.
Definition regular_of {A} (num : A -> option N) (l : list A) : list A :=
  filter (fun x => match num x with Some _ => false | None => true end) l.
Definition flush_order {A} (num : A -> option N) (l : list A) : list A :=
  if List.length (numeric_of num l) <? 2 then l
  else regular_of num l ++ map snd (sort_by_key (numeric_of num l)).

(** mod.rs:249-262 [write_reference] *)
Definition reference_text (r : reference) : str :=
  [c_lbr] ++ replace_char c_nul [c_sp] (ref_label r) ++ lit "]: " ++ ref_url r
  ++ title_suffix (ref_title r) ++ [c_nl].
Definition write_reference (r : reference) : act :=
  log (Def r) ;;
  emit (reference_text r) ;;
  upd (fun s => set_emitted (set_insert (ref_label r) (emitted_references s)) s).

(** mod.rs:179-240 [flush_references] *)
Definition flush_references : act :=
  get pending_references (fun pending =>
  if is_nil pending then nop
  else
    get emitted_references (fun emitted =>
    let refs := filter (fun r => negb (mem (ref_label r) emitted)) (map snd pending) in
    upd (set_pending []) ;;
    if is_nil refs then nop
    else
      ensure_blank_line ;;
      all (map write_reference (flush_order (fun r => extract_numeric_label (ref_label r)) refs)))).

Section Serializer.
Variable U : Uni.
Variable PN : list (str * str).      (* PROPER_NOUNS, build.rs *)
Variable ENT : str -> option str.    (* named entities *)
Variable o : Options.
Variable B : backend.
Variable src : list str.
Variable ends_nl : bool.
Variable checks : bool.              (* built with overflow checks *)

(** [a - b] on [usize]: with overflow checks an underflow panics; without
    them it wraps to a value near 2^64 that no width exceeds ([None]). *)
Definition sub_usize (a b : nat) : res (option nat) :=
  if b <=? a then Ok (Some (a - b)) else if checks then Panic else Ok None.

(** mod.rs:446-468: the wrapping loop of [write_footnote].  [cur] is the
    current line, [first] is [is_first_line]. *)
Definition fits (n : nat) (w : option nat) : bool := match w with Some m => n <=? m | None => true end.
Fixpoint footnote_lines (fw cw : option nat) (first : bool) (cur : str) (words : list str) : list str :=
  match words with
  | [] => if is_nil cur then [] else [cur]
  | w :: r =>
      if is_nil cur then footnote_lines fw cw first w r
      else if fits (u_width U cur + 1 + u_width U w) (if first then fw else cw)
      then footnote_lines fw cw first (cur ++ [c_sp] ++ w) r
      else cur :: footnote_lines fw cw false w r
  end.
(** mod.rs:471-480, 411-424: lines after the first are indented. *)
Definition footnote_body (prefix indent : str) (ls : list str) : str :=
  match ls with
  | [] => []
  | l :: r =>
      prefix ++ l ++ [c_nl]
      ++ flat_map (fun x => (if is_nil x then [] else indent ++ x) ++ [c_nl]) r
  end.
(** mod.rs:403-481 [write_footnote]: the text. *)
Definition footnote_text (f : footnote) : res str :=
  let prefix := lit "[^" ++ fn_name f ++ lit "]: " in
  let indent := spaces (byte_len prefix) in
  if fn_has_blocks f then Ok (footnote_body prefix indent (lines (fn_content f)))
  else
    rbind (sub_usize (line_width o) (u_width U prefix)) (fun fw =>
    rbind (sub_usize (line_width o) (byte_len indent)) (fun cw =>
    let words := split_whitespace (replace_char c_nul [c_sp] (fn_content f)) in
    if is_nil words then Ok (prefix ++ [c_nl])
    else Ok (footnote_body prefix indent (footnote_lines fw cw true [] words)))).
Definition write_footnote (f : footnote) : act :=
  match footnote_text f with
  | Panic => panic
  | Ok text =>
      log (Footnote f) ;;
      emit text ;;
      upd (fun s => let g := footnotes s in
        set_footnotes (mkFootnotes (f_pending g) (set_insert (fn_name f) (f_emitted g)) (f_reference_lines g)
          (f_collecting g) (f_current_line g) (f_pending_references g)) s)
  end.

(** mod.rs:279-282, 368-371: [None] flushes everything. *)
Definition due (before : option nat) (line : nat) : bool :=
  match before with Some l => (0 <? line) && (line <? l) | None => true end.
(** [insert] of every kept entry into the drained map. *)
Definition reinsert {A} (l : list (str * A)) : list (str * A) :=
  fold_left (fun m kv => imap_insert (fst kv) (snd kv) m) l [].

(** mod.rs:266-341 [flush_footnotes_before] *)
Definition flush_footnotes_before (before : option nat) : act :=
  get footnotes (fun f =>
  if is_nil (f_pending f) then nop
  else
    let live := filter (fun kv => negb (mem (fst kv) (f_emitted f))) (f_pending f) in
    let to_emit := map snd (filter (fun kv => due before (fn_reference_line (snd kv))) live) in
    let to_keep := filter (fun kv => negb (due before (fn_reference_line (snd kv)))) live in
    upd (set_footnotes (mkFootnotes (reinsert to_keep) (f_emitted f) (f_reference_lines f)
          (f_collecting f) (f_current_line f) (f_pending_references f))) ;;
    if is_nil to_emit then nop
    else
      ensure_blank_line ;;
      all (map write_footnote
             (flush_order (fun x => extract_numeric_footnote_name (fn_name x)) to_emit))).

(** mod.rs:355-395 [flush_footnote_references_before] *)
Definition flush_footnote_references_before (before : option nat) : act :=
  get footnotes (fun f =>
  if is_nil (f_pending_references f) then nop
  else
    get emitted_references (fun emitted =>
    let live := filter (fun kv => negb (mem (fst kv) emitted)) (f_pending_references f) in
    let to_emit := map (fun kv => fst (snd kv)) (filter (fun kv => due before (snd (snd kv))) live) in
    let to_keep := filter (fun kv => negb (due before (snd (snd kv)))) live in
    upd (set_footnotes (mkFootnotes (f_pending f) (f_emitted f) (f_reference_lines f)
          (f_collecting f) (f_current_line f) (reinsert to_keep))) ;;
    if is_nil to_emit then nop
    else ensure_blank_line ;; all (map write_reference to_emit))).

(** document.rs:55-57, 76-78, 92-94, 108-110, 165-167, 227-229 *)
Definition flush_all (before : option nat) : act :=
  flush_footnotes_before before ;; flush_references ;; flush_footnote_references_before before.

(** state.rs:161-163 [record_reference_line] *)
Definition record_reference_line (name : str) (line : nat) : act :=
  upd (fun s => let f := footnotes s in
    match assoc_str name (f_reference_lines f) with
    | Some _ => s
    | None => set_footnotes (mkFootnotes (f_pending f) (f_emitted f) (f_reference_lines f ++ [(name, line)])
                (f_collecting f) (f_current_line f) (f_pending_references f)) s
    end).
(** document.rs:544-553 [collect_footnote_reference_lines] *)
Fixpoint collect_reference_lines (n : node) : act :=
  match n with
  | Node v p cs =>
      (match v with
       | NFootnoteReference name => record_reference_line name (start_line p)
       | _ => nop
       end) ;; all (map collect_reference_lines cs)
  end.
(** state.rs:171-180 [start_collecting], [stop_collecting] *)
Definition set_collecting (b : bool) (line : nat) : act :=
  upd (fun s => let f := footnotes s in
    set_footnotes (mkFootnotes (f_pending f) (f_emitted f) (f_reference_lines f) b line
      (f_pending_references f)) s).
(** state.rs:148-158 [FootnoteSet::add] *)
Definition add_footnote (fn : footnote) : act :=
  upd (fun s => let f := footnotes s in
    set_footnotes (mkFootnotes (imap_insert (fn_name fn) fn (f_pending f)) (f_emitted f) (f_reference_lines f)
      (f_collecting f) (f_current_line f) (f_pending_references f)) s).

(** ** Blocks.  [kids] are the children with their [serialize_node]. *)
Definition kids := list (node * act).
Definition children_acts (k : kids) : act := all (map snd k).

(** block.rs:67-80 [serialize_blockquote_children] *)
Fixpoint blockquote_children (indent prefix : str) (first : bool) (k : kids) : act :=
  match k with
  | [] => nop
  | (_, a) :: r =>
      (if first then nop else emit (indent ++ prefix ++ lit ">" ++ [c_nl])) ;;
      a ;; blockquote_children indent prefix false r
  end.
(** block.rs:22-53 [enter_blockquote_context] *)
Definition enter_blockquote (c : ctx) : ctx :=
  mkCtx (list_item_index c) None (list_tight c) true (blockquote_prefix c ++ lit "> ") 0
        (in_description_details c) (description_details_first_list c) (ordered_list_max_items c)
        [] (list_item_indent c) (list_depth c).
(** block.rs:56-64 [exit_blockquote_context] *)
Definition exit_blockquote (old c : ctx) : ctx :=
  mkCtx (list_item_index c) (list_type old) (list_tight c) (in_block_quote old) (blockquote_prefix old)
        (list_depth old) (in_description_details c) (description_details_first_list c)
        (ordered_list_max_items c) (list_item_indent old) (blockquote_outer_indent old)
        (blockquote_entry_list_depth old).
(** block.rs:82-87 [serialize_block_quote] *)
Definition block_quote (k : kids) : act :=
  get cx (fun c =>
    updc enter_blockquote ;;
    blockquote_children (list_item_indent c) (blockquote_prefix c) true k ;;
    updc (exit_blockquote c)).
(** block.rs:91-97 *)
Definition alert_name (a : alert_kind) : str :=
  match a with
  | Note => lit "NOTE" | Tip => lit "TIP" | Important => lit "IMPORTANT"
  | Warn => lit "WARNING" | Caution => lit "CAUTION"
  end.
(** block.rs:89-123 [serialize_alert] *)
Definition alert (a : alert_kind) (p : sourcepos) (k : kids) : act :=
  get cx (fun c =>
    emit (list_item_indent c ++ blockquote_prefix c ++ lit "> [!" ++ alert_name a ++ lit "]" ++ [c_nl]) ;;
    (match k with
     | (first, _) :: _ =>
         if start_line p + 1 <? start_line (node_pos first)
         then emit (list_item_indent c ++ blockquote_prefix c ++ lit ">" ++ [c_nl])
         else nop
     | [] => nop
     end) ;;
    block_quote k).

(** list.rs:9-13 [count_list_items] *)
Definition count_list_items (cs : list node) : nat :=
  List.length (filter (fun c => match node_value c with NItem => true | _ => false end) cs).
(** list.rs:43-51: entering a list. *)
Definition enter_list (kind : list_kind) (tight : bool) (cs : list node) (c : ctx) : ctx :=
  mkCtx 0 (Some kind) tight (in_block_quote c) (blockquote_prefix c) (list_depth c + 1)
        (in_description_details c) (description_details_first_list c)
        (match kind with Ordered => count_list_items cs | Bullet => ordered_list_max_items c end)
        (list_item_indent c) (blockquote_outer_indent c) (blockquote_entry_list_depth c).
(** list.rs:55-59: leaving it.  [list_depth -= 1] underflows only at 0. *)
Definition exit_list (old c : ctx) : ctx :=
  mkCtx (list_item_index old) (list_type old) (list_tight old) (in_block_quote c) (blockquote_prefix c)
        (list_depth c - 1) (in_description_details c) (description_details_first_list c)
        (ordered_list_max_items old) (list_item_indent c) (blockquote_outer_indent c)
        (blockquote_entry_list_depth c).
(** list.rs:32-60 [serialize_list] *)
Definition list_block (kind : list_kind) (tight : bool) (k : kids) : act :=
  get cx (fun c =>
    updc (enter_list kind tight (map fst k)) ;;
    children_acts k ;;
    get (fun s => list_depth (cx s)) (fun d => if d =? 0 then panic else nop) ;;
    updc (exit_list c)).

(** list.rs:105-108 *)
Definition item_indent_width (c : ctx) : nat :=
  match list_type c with Some Ordered => ordered_list_indent_width o | _ => indent_width o end.
(** list.rs:17-30 [calculate_marker_width] *)
Definition marker_width (c : ctx) : nat :=
  match list_type c with
  | Some Bullet => leading_spaces o + 1 + trailing_spaces o
  | Some Ordered => ordered_list_indent_width o
  | None => 0
  end.
(** list.rs:120-158: the marker. *)
Definition item_marker (c : ctx) : str :=
  match list_type c with
  | Some Bullet =>
      (if in_description_details c && (list_depth c =? 1) then [] else spaces (leading_spaces o))
      ++ [unordered_marker_char (unordered_marker o)] ++ spaces (trailing_spaces o)
  | Some Ordered =>
      let marker := if list_depth c mod 2 =? 1 then ordered_marker_char (odd_level_marker o)
                    else ordered_marker_char (even_level_marker o) in
      let num := dec (list_item_index c) in
      let trailing := Nat.max (ordered_list_indent_width o - (byte_len num + 1)) 1 in
      num ++ [marker] ++ spaces trailing
  | None => []
  end.
(** list.rs:74-167: everything written before the children of an item; [c] is
    the context after the index was incremented. *)
Definition item_head (c : ctx) (task : option (option char)) : str :=
  (if negb (list_tight c) && (1 <? list_item_index c) then [c_nl] else [])
  ++ (if in_block_quote c then lit "> " else [])
  ++ (let on_colon := description_details_first_list c && (list_item_index c =? 1) && (list_depth c =? 1) in
      let base := if in_description_details c && negb on_colon then lit "     " else [] in
      if 1 <? list_depth c then base ++ spaces (item_indent_width c * (list_depth c - 1)) else base)
  ++ item_marker c
  ++ (match task with
      | Some (Some _) => lit "[x] "
      | Some None => lit "[ ] "
      | None => []
      end).
(** list.rs:176-208: the indentation of continuation lines; the subtraction
    [list_depth - 1] of line 195 underflows outside a list. *)
Definition item_base_indent (c : ctx) : res str :=
  let mw := marker_width c in
  let mwi :=
    if in_description_details c && (list_depth c =? 1) then
      match list_type c with
      | Some Bullet => 1 + trailing_spaces o
      | Some Ordered => ordered_list_indent_width o
      | None => 0
      end
    else mw in
  if in_description_details c then
    if list_depth c =? 0 then Panic
    else Ok (spaces (5 + item_indent_width c * (list_depth c - 1)) ++ spaces mwi)
  else if 1 <? list_depth c then Ok (spaces (item_indent_width c * (list_depth c - 1)) ++ spaces mw)
  else Ok (spaces mw).
(** list.rs:214-290: the children of an item; [prev] is the previous child. *)
Fixpoint item_children (base : str) (prev : option node) (k : kids) : act :=
  match k with
  | [] => nop
  | (child, a) :: r =>
      (match node_value child with
       | NList _ _ =>
           let blank :=
             match prev with
             | Some pn => end_line (node_pos pn) + 1 <? start_line (node_pos child)
             | None => false
             end in
           emit (if blank then [c_nl; c_nl] else [c_nl]) ;; a
       | NParagraph =>
           (match prev with
            | None => nop
            | Some pn =>
                let ends_nl_ := match node_value pn with NCodeBlock _ _ | NList _ _ => true | _ => false end in
                emit (if ends_nl_ then [c_nl] else [c_nl; c_nl]) ;;
                get cx (fun c => emit ((if in_block_quote c then lit "> " else []) ++ base))
            end) ;; a
       | NCodeBlock info literal =>
           get cx (fun c =>
             emit ([c_nl; c_nl] ++ (if in_block_quote c then lit "> " else []) ++ base) ;;
             code_act (fun n => code_block_indented o B (in_block_quote c) n info literal base))
       | NBlockQuote | NAlert _ =>
           emit (match prev with Some _ => [c_nl; c_nl] | None => [c_nl] end) ;;
           get cx (fun c => emit (if in_block_quote c then lit "> " else [])) ;; a
       | _ => a
       end) ;; item_children base (Some child) r
  end.
(** list.rs:297-306 *)
Definition ends_with_newline_kind (n : node) : bool :=
  match node_value n with
  | NList _ _ | NCodeBlock _ _ | NBlockQuote | NAlert _ => true
  | _ => false
  end.
Fixpoint last_child (k : kids) : option node :=
  match k with [] => None | [(n, _)] => Some n | _ :: r => last_child r end.
(** list.rs:69-310 [serialize_list_item] *)
Definition list_item (task : option (option char)) (k : kids) : act :=
  updc (fun c => set_index (list_item_index c + 1) c) ;;
  get cx (fun c =>
    emit (item_head c task) ;;
    match item_base_indent c with
    | Panic => panic
    | Ok base =>
        updc (set_item_indent base) ;;
        item_children base None k ;;
        updc (set_item_indent (list_item_indent c)) ;;
        (match last_child k with
         | Some n => if ends_with_newline_kind n then nop else emit [c_nl]
         | None => emit [c_nl]
         end)
    end).

(** document.rs:861-878 [serialize_thematic_break] *)
Definition thematic_break : act :=
  get cx (fun c =>
    emit ((if in_block_quote c then blockquote_outer_indent c ++ lit "> " else [])
          ++ spaces (thematic_break_leading_spaces o) ++ thematic_break_style o ++ [c_nl])).

(** document.rs:486-513: continuation prefix of a paragraph in a list. *)
Definition paragraph_continuation (c : ctx) : str :=
  let inner := list_depth c - blockquote_entry_list_depth c in
  let base :=
    if in_description_details c && (0 <? inner)
    then lit "     " ++ spaces (1 + trailing_spaces o) ++ List.concat (repeat (lit "    ") (inner - 1))
    else List.concat (repeat (lit "    ") inner) in
  if in_block_quote c then blockquote_outer_indent c ++ blockquote_prefix c ++ base else base.
(** document.rs:460-532 [serialize_paragraph] *)
Definition paragraph (n : node) : act :=
  match extract_source src (node_pos n) with
  | Panic => panic
  | Ok source =>
      let abbr :=
        match source with
        | Some s =>
            let t := trim s in
            if starts_with (lit "*[") t && contains_sub (lit "]:") t then Some t else None
        | None => None
        end in
      match abbr with
      | Some t => emit (t ++ [c_nl])
      | None =>
          inline (inline_content U ENT o src n) (fun content =>
          get cx (fun c =>
          match list_type c with
          | Some _ =>
              emit (wrap_text_first_line U (trim content) [] (paragraph_continuation c) (line_width o))
          | None =>
              let prefix :=
                if in_block_quote c then blockquote_outer_indent c ++ blockquote_prefix c else [] in
              emit (wrap_text U content prefix (line_width o) ++ [c_nl])
          end))
      end
  end.

(** document.rs:421-458 [serialize_heading] *)
Definition heading (n : node) (level : nat) : act :=
  inline (collect_text U ENT o src n) (fun text =>
  get (fun s => heading_output U PN o (proper_nouns s) (common_nouns s) level text) emit).

(** document.rs:316-328, 374-386: a paragraph in description details. *)
Definition details_paragraph (quote : str) (marker : str) (child : node) : act :=
  emit (quote ++ marker) ;;
  inline (inline_content U ENT o src child) (fun content =>
    emit (wrap_text_first_line U (trim content) [] (quote ++ lit "    ") (line_width o) ++ [c_nl])).
(** document.rs:357-360, 403-406 *)
Definition with_item_indent (indent : str) (a : act) : act :=
  get (fun s => list_item_indent (cx s)) (fun old =>
    updc (set_item_indent indent) ;; a ;; updc (set_item_indent old)).
(** document.rs:309-416: the children. *)
Fixpoint details_children (quote : str) (first : bool) (k : kids) : act :=
  match k with
  | [] => nop
  | (child, a) :: r =>
      (if first then
         match node_value child with
         | NParagraph => details_paragraph quote (lit ":   ") child
         | NCodeBlock info literal =>
             emit (quote ++ lit ":   " ++ [c_nl] ++ quote ++ lit "    ") ;;
             code_act (fun n => code_block_with_indent o B n info literal (quote ++ lit "    "))
         | NList _ _ =>
             emit (quote ++ lit ":    ") ;;
             updc (set_first_list true) ;; a ;; updc (set_first_list false)
         | NBlockQuote | NAlert _ =>
             emit (quote ++ lit ":" ++ [c_nl]) ;; with_item_indent (lit "    ") a
         | _ => emit (quote ++ lit ":   ") ;; a
         end
       else
         emit [c_nl] ;;
         match node_value child with
         | NParagraph => details_paragraph quote (lit "    ") child
         | NCodeBlock info literal =>
             emit (quote ++ lit "    ") ;;
             code_act (fun n => code_block_with_indent o B n info literal (quote ++ lit "    "))
         | NList _ _ => a
         | NBlockQuote | NAlert _ => with_item_indent (lit "    ") a
         | _ => emit (quote ++ lit "    ") ;; a
         end) ;; details_children quote false r
  end.
(** document.rs:295-419 [serialize_description_details] *)
Definition description_details (k : kids) : act :=
  get cx (fun c =>
    updc (set_in_details true) ;;
    details_children (if in_block_quote c then blockquote_outer_indent c ++ blockquote_prefix c else []) true k ;;
    updc (set_in_details (in_description_details c))).
(** mod.rs:549-568: a description list. *)
Fixpoint description_list (first : bool) (k : kids) : act :=
  match k with
  | [] => nop
  | (_, a) :: r =>
      (if first then nop
       else get cx (fun c =>
         if in_block_quote c then emit (list_item_indent c ++ trim_end (blockquote_prefix c) ++ [c_nl])
         else emit [c_nl])) ;;
      a ;; description_list false r
  end.

(** table.rs:30-46: the cells of every row, in order. *)
Fixpoint rcollect (l : list W) : res (list str * list inline_event) :=
  match l with
  | [] => Ok ([], [])
  | w :: r => rbind w (fun x => rbind (rcollect r) (fun y => Ok (fst x :: fst y, snd x ++ snd y)))
  end.
Fixpoint table_rows (rows : list node) : res (list (list str) * list inline_event) :=
  match rows with
  | [] => Ok ([], [])
  | row :: r =>
      rbind (rcollect (map (inline_content U ENT o src) (node_children row))) (fun x =>
      rbind (table_rows r) (fun y => Ok (fst x :: fst y, snd x ++ snd y)))
  end.
(** table.rs:10-116 [serialize_table] *)
Definition table (p : sourcepos) (aligns : list alignment) (rows : list node) : act :=
  if is_nil rows then nop
  else
    upd (fun s => set_warnings (warnings s ++
           check_table_source_columns src (start_line p) (end_line p) (List.length aligns) (start_line p)) s) ;;
    match table_rows rows with
    | Panic => panic
    | Ok (cells, evs) =>
        all (map do_event evs) ;;
        get cx (fun c => emit (table_text U (in_block_quote c) aligns cells))
    end.

(** link.rs:154-217 [serialize_link].  [link_text] is [collect_text]. *)
Definition link (next : option node) (n : node) (url title : str) (k : kids) : act :=
  let contains_image := existsb is_image (map fst k) in
  let is_autolink := is_nil title && seqb (raw_text n) url in
  match reference_style_of src (node_pos n) with
  | Panic => panic
  | Ok (Some (text, label)) =>
      if contains_image then
        let actual := strip_marker label in
        emit [c_lbr] ;; children_acts k ;; emit (lit "][" ++ actual ++ [c_rbr]) ;;
        add_reference (mkRef actual url title)
      else inline (format_reference_link text label url title) emit
  | Ok None =>
      if contains_image then
        emit [c_lbr] ;; children_acts k ;; emit (lit "](" ++ url ++ title_suffix title ++ [c_rpar])
      else if is_autolink then emit (format_autolink url)
      else if is_external_url url then
        inline (wbind (collect_text U ENT o src n) (fun link_text =>
                  format_external_link link_text url title (next_starts_with_bracket next))) emit
      else
        inline (wbind (collect_text U ENT o src n) (fun link_text =>
                  wret (format_inline_link link_text url title))) emit
  end.
(** What a collector did when its text is thrown away: no code is written. *)
Definition unwritten (w : W) : W :=
  rbind w (fun x => Ok (fst x, filter (fun e => match e with EvCode _ => false | EvUse _ => true end) (snd x))).
(** link.rs:219-234 [serialize_image] *)
Definition image (n : node) (url title : str) : act :=
  inline (rbind (reference_style_of src (node_pos n)) (fun info =>
    match info with
    | Some (text, label) =>
        wbind (unwritten (collect_text U ENT o src n)) (fun _ => format_reference_image text label url title)
    | None => wbind (collect_text U ENT o src n) (fun alt => wret (format_inline_image alt url title))
    end)) emit.

(** mod.rs:504-510 [serialize_single_block]: run [a] on an empty output and
    hand its output, trimmed at the end, to [k]. *)
Definition single_block (a : act) (k : str -> act) : act :=
  get output (fun old =>
    upd (set_output []) ;; a ;;
    get output (fun out => upd (set_output old) ;; k (trim_end out))).
(** mod.rs:485-501 [serialize_footnote_blocks] *)
Fixpoint footnote_blocks (result : str) (first : bool) (l : kids) (k : str -> act) : act :=
  match l with
  | [] => k (trim_end result)
  | (_, a) :: r =>
      single_block a (fun content =>
        footnote_blocks (result ++ (if negb first && negb (is_nil content) then [c_nl; c_nl] else []) ++ content)
          false r k)
  end.
(** mod.rs:646-664: the footnote contains block elements. *)
Definition footnote_has_blocks (cs : list node) : bool :=
  existsb (fun c => match node_value c with
                    | NCodeBlock _ _ | NBlockQuote | NList _ _ | NTable _ => true
                    | _ => false
                    end) cs
  || (1 <? List.length (filter is_paragraph cs)).
(** mod.rs:638-691: a footnote definition. *)
Definition footnote_definition (name : str) (cs : list node) (k : kids) : act :=
  get (fun s => match assoc_str name (f_reference_lines (footnotes s)) with Some l => l | None => 0 end)
  (fun line =>
    let has_blocks := footnote_has_blocks cs in
    let finish := fun content =>
      set_collecting false 0 ;; add_footnote (mkFootnote name content line has_blocks) in
    set_collecting true line ;;
    if has_blocks then footnote_blocks [] true k finish
    else inline (wcat (with_next (collect_inline U ENT o src) cs)) (fun content => finish (trim content))).

(** ** Documents (document.rs:12-293) *)

(** document.rs:237-264 [find_trailing_html_blocks], walking backwards: the
    number of children from the first trailing HTML block on. *)
Fixpoint trailing_html (rev_children : list node) (seen : nat) (start : nat) : nat :=
  match rev_children with
  | [] => start
  | c :: r =>
      match node_value c with
      | NHtmlBlock l =>
          match parse_directive l with
          | Some _ => start
          | None => trailing_html r (S seen) (S seen)
          end
      | NFootnoteDefinition _ => trailing_html r (S seen) start
      | _ => start
      end
  end.
Definition find_trailing_html_blocks (cs : list node) : nat :=
  List.length cs - trailing_html (rev cs) 0 0.

(** document.rs:267-293 [output_trailing_html_blocks] *)
Fixpoint output_trailing (first : bool) (cs : list node) : act :=
  match cs with
  | [] => nop
  | c :: r =>
      match node_value c with
      | NHtmlBlock l => (if first then ensure_blank_line else nop) ;; emit l ;; output_trailing false r
      | _ => output_trailing first r
      end
  end.

Definition heading_level (n : node) : option nat :=
  match node_value n with NHeading l => Some l | _ => None end.

(** document.rs:171-192: separation from the previous child. *)
Definition block_separator (prev : option node) (child : node) : str :=
  match prev with
  | None => []
  | Some pn =>
      if is_front_matter pn then []
      else match heading_level child with
           | Some 2 => if is_heading pn then [c_nl] else [c_nl; c_nl]
           | _ => [c_nl]
           end
  end.

(** document.rs:152-223: a child that is neither a directive nor deferred. *)
Definition document_block (prev : option node) (child : node) (a : act) : act :=
  (match heading_level child, prev with
   | Some 2, Some _ | Some 3, Some _ => flush_all (Some (start_line (node_pos child)))
   | _, _ => nop
   end) ;;
  emit (block_separator prev child) ;;
  get skip (fun m =>
    let verbatim :=
      match extract_source src (node_pos child) with
      | Panic => panic
      | Ok (Some source) => emit (source ++ [c_nl])
      | Ok None => a
      end in
    match m with
    | SkipNone => a
    | SkipNextBlock => upd (set_skip SkipNone) ;; verbatim
    | SkipUntilSection => if is_section_heading child then upd (set_skip SkipNone) ;; a else verbatim
    | SkipDisabled => verbatim
    end).

(** document.rs:46-150: a directive other than disable-file. *)
Definition directive_act (prev : option node) (child : node) (literal : str) (d : directive) : act :=
  let write := emit ((match prev with Some _ => [c_nl] | None => [] end) ++ literal) in
  let flush := flush_all (Some (start_line (node_pos child))) in
  match d with
  | DisableNextLine => flush ;; upd (set_skip SkipNextBlock) ;; write
  | DisableNextSection => flush ;; upd (set_skip SkipUntilSection) ;; write
  | Disable => flush ;; upd (set_skip SkipDisabled) ;; write
  | Enable => upd (set_skip SkipNone) ;; write
  | ProperNouns l => upd (fun s => set_nouns (proper_nouns s ++ l) (common_nouns s) s) ;; write
  | CommonNouns l => upd (fun s => set_nouns (proper_nouns s) (common_nouns s ++ l) s) ;; write
  | DisableFile => nop
  end.
(** document.rs:51-71: disable-file. *)
Definition disable_file (child : node) (literal : str) : act :=
  flush_all (Some (start_line (node_pos child))) ;;
  emit (trim_end literal) ;;
  match extract_source_from_line src ends_nl (end_line (node_pos child) + 1) with
  | Some remaining => emit (c_nl :: remaining)
  | None => nop
  end.

(** document.rs:35-224: the loop, then [finish] unless disable-file returned.
    [ts] is [trailing_html_start - i]; [prev] is [children[i - 1]]. *)
Fixpoint document_loop (ts : nat) (prev : option node) (k : kids) (finish : act) : act :=
  match k with
  | [] => finish
  | (child, a) :: r =>
      let continue_ := document_loop (ts - 1) (Some child) r finish in
      if (ts =? 0) && is_html_block child then continue_
      else if is_footnote_def child then continue_
      else
        match node_value child, directive_of child with
        | NHtmlBlock literal, Some DisableFile => disable_file child literal
        | NHtmlBlock literal, Some d => directive_act prev child literal d ;; continue_
        | _, _ => document_block prev child a ;; continue_
        end
  end.

(** document.rs:12-233 [serialize_document] *)
Definition document (n : node) (k : kids) : act :=
  let cs := map fst k in
  let ts := find_trailing_html_blocks cs in
  match check_undefined checks src n with
  | Panic => panic
  | Ok ws =>
      upd (fun s => set_warnings (warnings s ++ ws) s) ;;
      collect_reference_lines n ;;
      all (map (fun ca => if is_footnote_def (fst ca) then snd ca else nop) k) ;;
      document_loop ts None k
        (flush_all None ;; output_trailing true (skipn ts cs))
  end.

(** ** src/serializer/mod.rs:512-697 [serialize_node] *)
Fixpoint serialize (next : option node) (n : node) : act :=
  match n with
  | Node v p cs =>
      let k := combine cs (with_next serialize cs) in
      match v with
      | NDocument => document n k
      | NHeading level => heading n level
      | NList kind tight => list_block kind tight k
      | NCodeBlock info literal =>
          get cx (fun c => code_act (fun m => code_block o B (in_block_quote c) m info literal))
      | NBlockQuote => block_quote k
      | NHtmlBlock literal => emit literal
      | NHtmlInline html => emit html
      | NFrontMatter content => emit (trim content ++ [c_nl; c_nl])
      | NTable aligns => table p aligns cs
      | NTableRow => nop
      | NDescriptionList => description_list true k
      | NDescriptionDetails => description_details k
      | NAlert a => alert a p k
      | NItem => list_item None k
      | NTaskItem symbol => list_item (Some symbol) k
      | NParagraph => paragraph n
      | NThematicBreak => thematic_break
      | NText t => emit (escape_text t)
      | NSoftBreak => emit [c_sp]
      | NLineBreak => emit [c_nl]
      | NEmph => emit [c_star] ;; children_acts k ;; emit [c_star]
      | NStrong => emit [c_star; c_star] ;; children_acts k ;; emit [c_star; c_star]
      | NCode literal =>
          match extract_source src p with
          | Panic => panic
          | Ok (Some source) => log (Code source) ;; emit source
          | Ok None => log (Code (format_code_span literal)) ;; emit (format_code_span literal)
          end
      | NLink url title => link next n url title k
      | NImage url title => image n url title
      | NFootnoteReference name =>
          record_reference_line name (start_line p) ;; emit (lit "[^" ++ name ++ [c_rbr])
      | NFootnoteDefinition name => footnote_definition name cs k
      | NTableCell | NDescriptionItem | NDescriptionTerm | NOther => children_acts k
      end
  end.

(** src/serializer/mod.rs:37-60: the tree is the root, without siblings. *)
Definition serialize_root (n : node) : res st := serialize None n init_st.
End Serializer.

(** [str::ends_with('\n')] of the source (mod.rs:47). *)
Definition ends_with_newline (s : str) : bool := ends_with [c_nl] s.

(** src/lib.rs:207-225 [format], 249-273 [format_with_warnings].  [parse] is
    comrak's [parse_document] with the extensions hongdown enables. *)
Definition format_with_warnings (U : Uni) (PN : list (str * str)) (ENT : str -> option str)
    (parse : str -> node) (o : Options) (B : backend) (checks : bool) (input : str)
  : res (str * list warning) :=
  if is_nil input then Ok ([], [])
  else
    rbind (serialize_root U PN ENT o B (lines input) (ends_with_newline input) checks (parse input))
          (fun s => Ok (output s, warnings s)).
