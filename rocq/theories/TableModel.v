(** Model of src/serializer/table.rs: the layout of a table.  The cells are
    given as collected inline text; collecting them is in the serializer. *)
From Coq Require Import Bool Arith NArith String List.
From Verif Require Import Base EscapeModel CodeModel.
Import ListNotations.

(** comrak's [TableAlignment]. *)
Inductive alignment := ANone | ALeft | ACenter | ARight.

Section Table.
Variable U : Uni.

(** src/serializer/table.rs:189-212 [format_cell_aligned] *)
Definition format_cell_aligned (content : str) (width : nat) (a : alignment) : str :=
  let padding := width - u_width U content in
  match a with
  | ARight => spaces padding ++ content
  | ACenter =>
      let left_pad := padding / 2 in
      let right_pad := padding - left_pad in
      spaces left_pad ++ content ++ spaces right_pad
  | ALeft | ANone => content ++ spaces padding
  end.

(** table.rs:39-41: one row's contribution to the column widths. *)
Fixpoint widen (ws : list nat) (cells : list str) : list nat :=
  match ws, cells with
  | w :: ws', c :: cs => Nat.max w (u_width U c) :: widen ws' cs
  | _, _ => ws
  end.
(** table.rs:29, 31-51: column widths, at least 3. *)
Definition col_widths (aligns : list alignment) (rows : list (list str)) : list nat :=
  map (fun w => Nat.max w 3) (fold_left widen rows (repeat 0 (List.length aligns))).

(** table.rs:58-65 and 104-111: the cells of a row.  [get(i)] on widths and
    alignments is the head of the remaining lists. *)
Fixpoint row_cells_text (ws : list nat) (aligns : list alignment) (cells : list str) : str :=
  match cells with
  | [] => []
  | c :: cs =>
      [c_sp] ++ format_cell_aligned c (hd 3 ws) (hd ANone aligns) ++ lit " |"
      ++ row_cells_text (tl ws) (tl aligns) cs
  end.
Definition row_text (quote : bool) (ws : list nat) (aligns : list alignment) (cells : list str) : str :=
  (if quote then lit "> " else []) ++ [c_pipe] ++ row_cells_text ws aligns cells ++ [c_nl].

(** table.rs:75-94: the delimiter row.  The subtractions cannot underflow:
    widths are at least 3. *)
Definition delimiter_cell (w : nat) (a : alignment) : str :=
  match a with
  | ALeft => [c_colon] ++ repc c_dash (w - 1)
  | ARight => repc c_dash (w - 1) ++ [c_colon]
  | ACenter => [c_colon] ++ repc c_dash (w - 2) ++ [c_colon]
  | ANone => repc c_dash w
  end.
Fixpoint delimiter_cells_text (ws : list nat) (aligns : list alignment) : str :=
  match aligns with
  | [] => []
  | a :: r => [c_sp] ++ delimiter_cell (hd 3 ws) a ++ lit " |" ++ delimiter_cells_text (tl ws) r
  end.

(** src/serializer/table.rs:10-116 [serialize_table] for the given cell
    contents (before pipe escaping, table.rs:38). *)
Definition table_text (quote : bool) (aligns : list alignment) (rows : list (list str)) : str :=
  match map (map escape_table_cell) rows with
  | [] => []
  | header :: body =>
      let ws := col_widths aligns (header :: body) in
      row_text quote ws aligns header
      ++ ((if quote then lit "> " else []) ++ [c_pipe] ++ delimiter_cells_text ws aligns ++ [c_nl])
      ++ flat_map (row_text quote ws aligns) body
  end.
End Table.

(** src/serializer/table.rs:124-183 [check_table_source_columns]: warnings
    for source lines whose number of pipes does not fit.  [start_line] and
    [end_line] are the table's source lines, 1-based. *)
Definition table_line_warning (expected_cols table_start_line line_num : nat) (line : str) : list warning :=
  if forallb (fun c => ceq c c_pipe || ceq c c_dash || ceq c c_colon || ceq c c_sp) line then []
  else
    let pipe_count := count_unescaped_pipes line in
    let full := expected_cols + 1 in
    if full <? pipe_count then
      [mkWarning line_num
        (lit "table row has " ++ dec pipe_count ++ lit " pipe characters, expected " ++ dec full
         ++ lit " for " ++ dec expected_cols
         ++ lit " columns; unescaped `|` in cell content? (table starts at line "
         ++ dec table_start_line ++ lit ")")]
    else if pipe_count <? expected_cols then
      [mkWarning line_num
        (lit "table row has " ++ dec pipe_count ++ lit " pipe characters, expected at least "
         ++ dec expected_cols ++ lit " for " ++ dec expected_cols
         ++ lit " columns (table starts at line " ++ dec table_start_line ++ lit ")")]
    else [].
Definition check_table_source_columns (source : list str) (start_line end_line expected_cols table_start_line : nat)
  : list warning :=
  if (start_line =? 0) || (end_line =? 0) then []
  else flat_map (fun line_num =>
         match nth_error source (line_num - 1) with
         | Some line => table_line_warning expected_cols table_start_line line_num line
         | None => []
         end) (seq start_line (S end_line - start_line)).
