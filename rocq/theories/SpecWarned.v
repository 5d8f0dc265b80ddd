(** Which warnings a run gives (C66).  Independent of how anything is written. *)
From Coq Require Import Bool Arith NArith String List.
From Verif Require Import Base CodeModel AstModel StateModel SpecState SpecContext SpecInline SpecDoc SpecWarn.
Import ListNotations.

(** The warnings that are about a line of the source; those of formatters are
    about none. *)
Definition located (ws : list warning) : list warning := filter (fun w => negb (warn_line w =? 0)) ws.

(** A footnote that is read as blocks. *)
Definition reads_blocks (cs : list node) : bool :=
  existsb (fun c => match node_value c with NCodeBlock _ _ | NBlockQuote | NList _ _ | NTable _ => true | _ => false end) cs
  || (2 <=? List.length (filter (fun c => match node_value c with NParagraph => true | _ => false end) cs)).
(** The tables with rows that are written in a block, in order.  Paragraphs and
    headings are written as texts, and so are links that hold no image; in trees
    of a parser none of these holds a table. *)
Fixpoint tables (n : node) : list node :=
  match n with
  | Node v p cs =>
      match v with
      | NTable _ => match cs with [] => [] | _ => [n] end
      | NFootnoteDefinition _ => if reads_blocks cs then flat_map tables cs else []
      | NLink _ _ =>
          if existsb (fun c => match node_value c with NImage _ _ => true | _ => false end) cs then flat_map tables cs else []
      | NList _ _ | NItem | NTaskItem _ | NBlockQuote | NAlert _ | NDescriptionList | NDescriptionItem | NDescriptionTerm
      | NDescriptionDetails | NTableCell | NEmph | NStrong | NOther => flat_map tables cs
      | _ => []
      end
  end.

Section Formatted.
Variable there : node -> Prop.
(** The tables in the blocks [cs] that are formatted, starting in mode [m];
    blocks that are [there] in the source can be kept. *)
Inductive formatted_tables : mode -> list node -> list node -> Prop :=
| ft_end : forall m, formatted_tables m [] []
| ft_note : forall m n cs ts, note_definition n -> formatted_tables m cs ts -> formatted_tables m (n :: cs) ts
| ft_trailing : forall m n cs ts, trails n cs -> formatted_tables m cs ts -> formatted_tables m (n :: cs) ts
| ft_file : forall m n cs, directs n DisableFile -> formatted_tables m (n :: cs) []
| ft_directive : forall m n d cs ts, directs n d -> d <> DisableFile ->
    formatted_tables (after_directive m d) cs ts -> formatted_tables m (n :: cs) ts
| ft_kept : forall m n cs ts, ordinary n cs -> frozen m n = true -> there n ->
    formatted_tables (after_block m n) cs ts -> formatted_tables m (n :: cs) ts
| ft_here : forall m n cs ts, ordinary n cs -> frozen m n = false \/ ~ there n ->
    formatted_tables (after_block m n) cs ts -> formatted_tables m (n :: cs) (tables n ++ ts).
End Formatted.
Definition note_tables (cs : list node) : list node :=
  flat_map (fun c => match node_value c with NFootnoteDefinition _ => tables c | _ => [] end) cs.

(** The line of a table with [cols] columns has too few or too many pipes: a row
    may leave out the outer ones.  Lines of nothing but pipes, dashes, colons and
    spaces do not count. *)
Definition uneven (cols : nat) (line : str) : Prop :=
  (pipes_prev false line < cols \/ cols + 1 < pipes_prev false line)
  /\ exists c, In c line /\ c <> c_pipe /\ c <> c_dash /\ c <> c_colon /\ c <> c_sp.
(** [ws] are the warnings about the lines of the table [t]: one for each uneven
    line, in order. *)
Definition row_warnings (src : list str) (t : node) (ws : list warning) : Prop :=
  exists aligns, node_value t = NTable aligns
  /\ (forall a w b w' c, ws = a ++ w :: b ++ w' :: c -> warn_line w < warn_line w')
  /\ forall l, In l (map warn_line ws) <->
       1 <= start_line (node_pos t) /\ start_line (node_pos t) <= l <= end_line (node_pos t)
       /\ exists line, nth_error src (l - 1) = Some line /\ uneven (List.length aligns) line.
