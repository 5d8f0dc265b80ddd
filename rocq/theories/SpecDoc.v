(** The text of a document, block by block (C23, C24). *)
From Coq Require Import Bool Arith NArith String List.
From Verif Require Import Base OptsModel AstModel StateModel SerModel SpecState.
Import ListNotations.

(** The node is an HTML comment that is the directive [d]. *)
Definition directs (n : node) (d : directive) : Prop :=
  exists l body, node_value n = NHtmlBlock l /\ comment_body l body /\ directive_form body d.
Definition html_literal (n : node) (l : str) : Prop := node_value n = NHtmlBlock l.
Definition note_definition (n : node) : Prop := exists name, node_value n = NFootnoteDefinition name.

(** HTML blocks at the end of the document are written last; footnote
    definitions are written by themselves. *)
Definition may_trail (n : node) : Prop :=
  note_definition n \/ ((exists l, html_literal n l) /\ forall d, ~ directs n d).
Definition trails (n : node) (rest : list node) : Prop :=
  (exists l, html_literal n l) /\ may_trail n /\ Forall may_trail rest.

(** A block that is not deferred and not a directive. *)
Definition ordinary (n : node) (rest : list node) : Prop :=
  ~ note_definition n /\ ~ trails n rest /\ forall d, ~ directs n d.

(** The mode in which the next block is written. *)
Inductive mode := Format | NextBlock | Section_ | Region.
(** The block is to be written as it stands in the source. *)
Definition frozen (m : mode) (n : node) : bool :=
  match m with
  | Format => false
  | NextBlock | Region => true
  | Section_ => match node_value n with NHeading 0 | NHeading 1 | NHeading 2 => false | _ => true end
  end.
Definition after_block (m : mode) (n : node) : mode :=
  match m with
  | Format => Format
  | NextBlock => Format
  | Section_ => if frozen Section_ n then Section_ else Format
  | Region => Region
  end.
Definition after_directive (m : mode) (d : directive) : mode :=
  match d with
  | DisableNextLine => NextBlock
  | DisableNextSection => Section_
  | Disable => Region
  | Enable => Format
  | _ => m
  end.

(** Between two blocks. *)
Definition gap (prev : option node) (n : node) : str :=
  match prev with
  | None => []
  | Some p =>
      match node_value p, node_value n with
      | NFrontMatter _, _ => []
      | NHeading _, NHeading 2 => [c_nl]
      | _, NHeading 2 => [c_nl; c_nl]
      | _, _ => [c_nl]
      end
  end.

(** [s] without the white space at its end. *)
Definition end_core (s t : str) : Prop :=
  exists w, s = t ++ w /\ ws w /\ forall r c, t = r ++ [c] -> is_ws c = false.

Section Document.
Variable U : Uni.
Variable o : Options.
Variable checks : bool.
Variable src : list str.
Variable ends_nl : bool.

(** Definitions put between blocks: reference lines, footnotes, and the blank
    lines before them. *)
Definition piece (t : str) : Prop :=
  t = [c_nl] \/ t = [c_nl; c_nl] \/ (exists r, t = definition_line r) \/ (exists f, footnote_text U o checks f = Ok t).
Definition definitions (t : str) : Prop := exists ps, Forall piece ps /\ t = List.concat ps.

(** [x] is the source of [n], if its position lies in the source. *)
Definition source_of (n : node) (x : str) : Prop :=
  forall s, spans (join [c_nl] src) (node_pos n) s -> x = s.

(** [document out prev m cs hs t]: after [out] and the block [prev], in mode [m], the
    blocks [cs] are written as [t]; [hs] are the trailing HTML blocks so far. *)
Inductive document_text : str -> option node -> mode -> list node -> list str -> str -> Prop :=
| dt_end : forall out prev m hs fl sep,
    definitions fl ->
    (hs = [] -> sep = []) -> (hs <> [] -> separates (out ++ fl) sep) ->
    document_text out prev m [] hs (fl ++ sep ++ List.concat hs)
| dt_note : forall out prev m n cs hs t,
    note_definition n ->
    document_text out (Some n) m cs hs t ->
    document_text out prev m (n :: cs) hs t
| dt_trailing : forall out prev m n l cs hs t,
    trails n cs -> html_literal n l ->
    document_text out (Some n) m cs (hs ++ [l]) t ->
    document_text out prev m (n :: cs) hs t
| dt_disable_file : forall out prev m n l l' cs hs fl rest,
    directs n DisableFile -> html_literal n l -> end_core l l' ->
    definitions fl ->
    (skipn (end_line (node_pos n)) src = [] -> rest = []) ->
    (skipn (end_line (node_pos n)) src <> [] ->
       rest = [c_nl] ++ join [c_nl] (skipn (end_line (node_pos n)) src) ++ (if ends_nl then [c_nl] else [])) ->
    document_text out prev m (n :: cs) hs (fl ++ l' ++ rest)
| dt_directive : forall out prev m n d l cs hs fl t,
    directs n d -> d <> DisableFile -> html_literal n l ->
    definitions fl ->
    (d <> Disable -> d <> DisableNextLine -> d <> DisableNextSection -> fl = []) ->
    let chunk := fl ++ match prev with Some _ => [c_nl] | None => [] end ++ l in
    document_text (out ++ chunk) (Some n) (after_directive m d) cs hs t ->
    document_text out prev m (n :: cs) hs (chunk ++ t)
| dt_frozen : forall out prev m n cs hs fl x t,
    ordinary n cs -> frozen m n = true ->
    definitions fl ->
    (prev = None \/ (node_value n <> NHeading 2 /\ node_value n <> NHeading 3) -> fl = []) ->
    source_of n x ->
    let chunk := fl ++ gap prev n ++ x ++ [c_nl] in
    document_text (out ++ chunk) (Some n) (after_block m n) cs hs t ->
    document_text out prev m (n :: cs) hs (chunk ++ t)
| dt_formatted : forall out prev m n cs hs fl x t,
    ordinary n cs -> (frozen m n = false \/ forall s, ~ spans (join [c_nl] src) (node_pos n) s) ->
    definitions fl ->
    (prev = None \/ (node_value n <> NHeading 2 /\ node_value n <> NHeading 3) -> fl = []) ->
    let chunk := fl ++ gap prev n ++ x in
    document_text (out ++ chunk) (Some n) (after_block m n) cs hs t ->
    document_text out prev m (n :: cs) hs (chunk ++ t).
End Document.

(** The blocks [ns], written one after the other as the source texts [xs];
    only before headings of level 2 and 3 definitions may be put in. *)
Inductive verbatim_blocks (U : Uni) (o : Options) (checks : bool) : option node -> list node -> list str -> str -> Prop :=
| vb_nil : forall prev, verbatim_blocks U o checks prev [] [] []
| vb_cons : forall prev n ns x xs fl t,
    definitions U o checks fl ->
    (node_value n <> NHeading 2 /\ node_value n <> NHeading 3 -> fl = []) ->
    verbatim_blocks U o checks (Some n) ns xs t ->
    verbatim_blocks U o checks prev (n :: ns) (x :: xs) (fl ++ gap prev n ++ x ++ [c_nl] ++ t).

(** The blocks a directive disables: up to the end of the region, up to the
    next heading of level 1 or 2, or one. *)
Definition governs (d : directive) (ns : list node) : Prop :=
  match d with
  | Disable => True
  | DisableNextSection => Forall (fun n => forall l, node_value n = NHeading l -> 3 <= l) ns
  | DisableNextLine => List.length ns <= 1
  | _ => False
  end.

(** [n] stands between a disable directive and the next enable directive. *)
Definition in_region (cs : list node) (n : node) : Prop :=
  exists pre d mid mid' e post, cs = pre ++ d :: mid ++ n :: mid' ++ e :: post
    /\ directs d Disable /\ directs e Enable
    /\ Forall (fun m => ~ directs m Enable) mid /\ Forall (fun m => ~ directs m DisableFile) pre.
