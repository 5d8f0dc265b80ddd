(** What it means that a document keeps its block structure (C44): which
    blocks a node stands for, and the documents the claim is made about.
    Blocks are those of [SpecBlocks]. *)
From Coq Require Import Bool Arith NArith String List Permutation.
From Verif Require Import Base OptsModel CodeModel HeadingModel TableModel AstModel StateModel InlineModel SpecCode SpecHeading
  SpecWrap SpecRefs SpecTable SpecBlocks SpecEnd SpecDoc.
Import ListNotations.

(** List markers of four columns and nested items four columns further in, as
    in the default configuration. *)
Record four_columns (o : Options) : Prop := {
  fc_bullet : leading_spaces o + 1 + trailing_spaces o = 4;
  fc_trailing : 1 <= trailing_spaces o;
  fc_indent : indent_width o = 4;
  fc_ordered : ordered_list_indent_width o = 4
}.

Section Structure.
Variable U : Uni.
Variable PN : list (str * str).
Variable ENT : str -> option str.
Variable o : Options.
Variable B : backend.
Variable src : list str.

(** ** Texts *)
(** The text of a paragraph; inside a list item it is trimmed. *)
Definition para_text (d : nat) (n : node) (x : str) : Prop :=
  exists y evs, inline_content U ENT o src n = Ok (y, evs) /\ x = if d =? 0 then y else trim y.
(** The text a heading is shown with. *)
Definition head_text (n : node) (t : str) : Prop :=
  exists text evs, collect_text U ENT o src n = Ok (text, evs)
    /\ t = if heading_sentence_case o then to_sentence_case U PN (heading_proper_nouns o) (heading_common_nouns o) text else text.
Definition alert_word (a : alert_kind) : str :=
  match a with
  | Note => lit "NOTE" | Tip => lit "TIP" | Important => lit "IMPORTANT" | Warn => lit "WARNING" | Caution => lit "CAUTION"
  end.
(** The text of a cell of a table; a pipe in it, with a backslash or without, is
    just a pipe. *)
Definition cell_text (n : node) (x : str) : Prop := exists evs, inline_content U ENT o src n = Ok (x, evs).
Fixpoint bare_pipes (x : str) : str :=
  match x with
  | c :: r =>
      if ceq c c_bs
      then match r with
           | d :: r' => if ceq d c_pipe then c_pipe :: bare_pipes r' else c :: d :: bare_pipes r'
           | [] => [c]
           end
      else c :: bare_pipes r
  | [] => []
  end.
(** The marker of a list at depth [d] that begins with item 1. *)
Definition list_marker (kind : list_kind) (d : nat) : marker :=
  match kind with
  | Bullet => BulletOf (match unordered_marker o with UHyphen => c_dash | UAsterisk => c_star | UPlus => c_plus end)
  | Ordered => NumberOf (lit "1") (match (if Nat.odd d then odd_level_marker o else even_level_marker o) with
                                   | OPeriod => c_dot | OParenthesis => c_rpar end)
  end.

(** The text of details of a description is trimmed like that of an item. *)
Definition detail_depth (n : node) : nat := match node_value n with NParagraph => 1 | _ => 0 end.

(** ** The block a node stands for; [d] is the depth of lists around it. *)
Inductive same : nat -> node -> block -> Prop :=
| sm_para : forall d p cs x, para_text d (Node NParagraph p cs) x ->
    same d (Node NParagraph p cs) (Para (map words (segments x)))
| sm_head : forall d level p cs t, head_text (Node (NHeading level) p cs) t ->
    same d (Node (NHeading level) p cs) (Head level t)
| sm_code : forall d info literal p cs k content calls failed, settles o B k info literal content calls failed ->
    same d (Node (NCodeBlock info literal) p cs) (Code (block_info o info) (cm_lines content))
| sm_rule : forall d p cs, same d (Node NThematicBreak p cs) Rule
| sm_quote : forall d p cs bs, Forall2 (same 0) cs bs -> same d (Node NBlockQuote p cs) (Quote bs)
| sm_alert : forall d a p cs bs, Forall2 (same 0) cs bs -> same d (Node (NAlert a) p cs) (Alert (alert_word a) bs)
| sm_list : forall d kind tight p cs items, Forall2 (same_item (S d)) cs items ->
    same d (Node (NList kind tight) p cs) (SpecBlocks.List (list_marker kind (S d)) items)
| sm_table : forall d aligns p rows t,
    Forall2 (fun row => Forall2 (fun c y => exists x, cell_text c x /\ y = bare_pipes x) (node_children row)) rows t ->
    same d (Node (NTable aligns) p rows) (Table aligns t)
| sm_html : forall d literal p cs, same d (Node (NHtmlBlock literal) p cs) (Html (cm_lines literal))
| sm_describe : forall d p cs es, Forall2 same_entry cs es -> same d (Node NDescriptionList p cs) (Describe es)
with same_item : nat -> node -> option bool * list block -> Prop :=
| sm_item : forall d p cs bs, Forall2 (same d) cs bs -> same_item d (Node NItem p cs) (None, bs)
| sm_task : forall d symbol p cs bs, Forall2 (same d) cs bs ->
    same_item d (Node (NTaskItem symbol) p cs) (Some (match symbol with Some _ => true | None => false end), bs)
with same_entry : node -> list (list str) * list block -> Prop :=
| sm_entry : forall p q r t ts ds x bs, para_text 0 (Node NParagraph t ts) x -> Forall2 (fun n => same (detail_depth n) n) ds bs ->
    same_entry (Node NDescriptionItem p [Node NDescriptionTerm q [Node NParagraph t ts]; Node NDescriptionDetails r ds])
      (map words (segments x), bs).

(** ** The documents: where nodes may stand and what they may contain *)

(** Inside [marks] block quotes, the outermost of which is in an item at depth
    [outer]; inside them in an item at depth [inner]. *)
Inductive place := At (outer marks inner : nat).

Definition line_chars (s : str) : Prop := Forall (fun c => c <> c_nl /\ c <> c_cr) s.
(** The link definition a reference is written as. *)
Record definable (r : reference) : Prop := {
  df_label : guarded bracket (SpecRefs.spaced (ref_label r));
  df_dark : exists c, In c (ref_label r) /\ c <> 0%N /\ is_ws c = false;
  df_caret : hd_error (SpecRefs.spaced (ref_label r)) <> Some c_caret;
  df_line : line_chars (ref_label r) /\ line_chars (ref_title r);
  df_url : ref_url r <> [] /\ hd_error (ref_url r) <> Some c_lt
           /\ Forall (fun c => (32 < c)%N /\ c <> 127%N /\ c <> c_lpar /\ c <> c_rpar) (ref_url r);
  df_title : guarded quote_mark (ref_title r)
}.
Definition definable_uses (evs : list inline_event) : Prop := forall r, In (EvUse r) evs -> definable r.
(** The text of a heading, read from the line it is written on. *)
Definition heading_line (level : nat) (t : str) : Prop :=
  line_chars t /\ 1 <= level <= 6
  /\ (underlined o level -> 1 <= u_width U t /\ trim_blank t = t /\ (exists c r, t = c :: r /\ is_ws c = false)
       /\ opener (hd [] (split_whitespace t)) = false /\ marker_of (hd [] (split_whitespace t)) = None
       /\ (starts_with [c_lbr] t = true -> defines t = false))
  /\ (~ underlined o level -> atx_text t = t).
(** The rule as it is configured. *)
Definition rule_line : str := spaces (thematic_break_leading_spaces o) ++ thematic_break_style o.
Definition rule_survives : Prop :=
  line_chars rule_line /\ thematic_break_leading_spaces o <= 3 /\ is_rule (thematic_break_style o) = true
  /\ exists c r, thematic_break_style o = c :: r /\ is_ws c = false.
(** The code of a block, whatever formatters make of it. *)
Definition code_survives (quoted : bool) (info literal : str) : Prop :=
  3 <= min_fence_length o /\ info_survives o (block_info o info)
  /\ forall k content calls failed, settles o B k info literal content calls failed ->
       no_lone_cr content /\ (quoted = true -> Forall (fun l => tabbed l = false) (cm_lines content)).

(** What details may continue with.  They have no lists: those that come first
    are written one column further to the right than what follows them, and of
    the others only some have their lines where they belong.  Code has no run of
    fence characters longer than the shortest fence, and ends its last line. *)
Definition detail_fits (n : node) : Prop :=
  match node_value n with
  | NList _ _ => False
  | NCodeBlock info literal =>
      forall k content calls failed, settles o B k info literal content calls failed ->
        (forall a b, content <> a ++ repc (fence_char_char (fence_char o)) (S (min_fence_length o)) ++ b)
        /\ (content = [] \/ exists t, content = t ++ [c_nl])
  | _ => True
  end.

(** The rows of a table. *)
Definition good_cell (c : node) : Prop :=
  exists x evs, inline_content U ENT o src c = Ok (x, evs) /\ definable_uses evs /\ line_chars x /\ trim_blank x = x.
Definition good_row (columns : nat) (row : node) : Prop :=
  List.length (node_children row) = columns /\ Forall good_cell (node_children row).
(** An HTML block: a comment, or a block with a known tag and no blank line. *)
Definition html_block_text (literal : str) : Prop :=
  literal = flat_map (fun l => l ++ [c_nl]) (cm_lines literal)
  /\ exists l r s, cm_lines literal = l :: r /\ margin l = Some s /\ html_line s = true
     /\ match html_sort_of s with
        | Comment => exists a z, l :: r = a ++ [z] /\ Forall (fun x => comment_ends x = false) a /\ comment_ends z = true
        | Tag => Forall (fun x => is_blank x = false) (l :: r)
        | Other_html => False
        end.

(** No two lists of the same kind one after the other, nor two description
    lists. *)
Fixpoint apart (cs : list node) : Prop :=
  match cs with
  | c :: r =>
      match r with
      | c' :: _ => (forall k t k' t', node_value c = NList k t -> node_value c' = NList k' t' -> k <> k')
                   /\ (node_value c = NDescriptionList -> node_value c' <> NDescriptionList)
      | [] => True
      end /\ apart r
  | [] => True
  end.
Definition source_gap (c c' : node) : Prop := end_line (node_pos c) + 1 < start_line (node_pos c').
(** A list directly below a paragraph does not begin with an empty item. *)
Fixpoint joined (cs : list node) : Prop :=
  match cs with
  | c :: r =>
      match r with
      | c' :: _ => node_value c = NParagraph -> ~ source_gap c c' ->
          forall k t p i is, c' = Node (NList k t) p (i :: is) -> node_children i <> []
      | [] => True
      end /\ joined r
  | [] => True
  end.

Inductive good : place -> node -> Prop :=
| gd_para : forall a k d p cs x evs,
    unabbreviated src p -> inline_content U ENT o src (Node NParagraph p cs) = Ok (x, evs) -> definable_uses evs ->
    safe_text (if d =? 0 then x else trim x) -> (k <> 0 -> d = 0 -> unalerted x) ->
    good (At a k d) (Node NParagraph p cs)
| gd_head : forall level p cs t evs,
    collect_text U ENT o src (Node (NHeading level) p cs) = Ok (t, evs) -> definable_uses evs ->
    (forall t, head_text (Node (NHeading level) p cs) t -> heading_line level t) ->
    good (At 0 0 0) (Node (NHeading level) p cs)
| gd_code : forall k d info literal p cs,
    k = 0 \/ k = 1 /\ d = 0 ->
    code_survives (negb (k =? 0)) info literal ->
    good (At 0 k d) (Node (NCodeBlock info literal) p cs)
| gd_rule : forall a k p cs, k = 0 /\ a = 0 \/ k = 1 -> rule_survives -> good (At a k 0) (Node NThematicBreak p cs)
| gd_quote : forall k d p cs, k = 0 \/ d = 0 -> cs <> [] -> apart cs -> Forall (good (At d (S k) 0)) cs ->
    good (At 0 k d) (Node NBlockQuote p cs)
| gd_alert : forall k d a p cs, k = 0 \/ d = 0 -> apart cs -> Forall (good (At d (S k) 0)) cs ->
    good (At 0 k d) (Node (NAlert a) p cs)
| gd_list : forall k d kind tight p cs, k <= 1 -> cs <> [] -> (kind = Ordered -> List.length cs <= 99) -> (k = 1 -> tight = true) ->
    Forall (good_item (At 0 k (S d))) cs -> good (At 0 k d) (Node (NList kind tight) p cs)
| gd_table : forall k aligns p rows, k <= 1 -> aligns <> [] -> rows <> [] -> Forall (good_row (List.length aligns)) rows ->
    good (At 0 k 0) (Node (NTable aligns) p rows)
| gd_html : forall literal p cs, html_block_text literal -> (forall d, ~ directs (Node (NHtmlBlock literal) p cs) d) ->
    good (At 0 0 0) (Node (NHtmlBlock literal) p cs)
| gd_describe : forall k p cs, cs <> [] -> Forall (good_entry k) cs -> good (At 0 k 0) (Node NDescriptionList p cs)
with good_item : place -> node -> Prop :=
| gd_empty : forall w p, good_item w (Node NItem p [])
| gd_item : forall k d v p q ics cs,
    v = NItem /\ (forall x, para_text d (Node NParagraph q ics) x -> unboxed x) \/ (exists symbol, v = NTaskItem symbol) ->
    (k = 1 -> cs = [] \/ exists c, cs = [c] /\ (exists kind tight, node_value c = NList kind tight) /\ ~ source_gap (Node NParagraph q ics) c) ->
    apart cs -> joined (Node NParagraph q ics :: cs) ->
    good (At 0 k d) (Node NParagraph q ics) -> Forall (good (At 0 k d)) cs ->
    good_item (At 0 k d) (Node v p (Node NParagraph q ics :: cs))
(** Details begin with a paragraph: code, quotes and alerts that come first are
    written below the colon, where the reader gives up.  In a quote there is
    nothing else in them: the lines between blocks do not belong to the quote. *)
with good_entry : nat -> node -> Prop :=
| gd_entry : forall k p q r t ts u us ds,
    good (At 0 k 0) (Node NParagraph t ts) -> good (At 0 k 1) (Node NParagraph u us) ->
    (k <> 0 -> ds = []) -> Forall detail_fits ds -> Forall (good (At 0 0 1)) ds ->
    good_entry k (Node NDescriptionItem p [Node NDescriptionTerm q [Node NParagraph t ts];
                                         Node NDescriptionDetails r (Node NParagraph u us :: ds)]).

(** ** Whole documents *)
(** A footnote and its blocks. *)
Inductive same_note : node -> block -> Prop :=
| sm_note : forall name p cs bs, Forall2 (same 0) cs bs -> same_note (Node (NFootnoteDefinition name) p cs) (Foot name bs).
(** What may follow the first paragraph of a footnote.  Its lines are written
    with as many blanks as the name has bytes, and five more; a reader takes
    away four, so the blocks are further in by [j] columns and read as code
    from the fourth on.  Tables and whatever else is not named are left out, as
    are lines that begin with a tab after their blanks: those depend on the
    column they are in. *)
Definition moves (j : nat) (n : node) : Prop :=
  match node_value n with
  | NParagraph | NCodeBlock _ _ | NBlockQuote | NAlert _ => j <= 3
  | NList Bullet _ => leading_spaces o + j <= 3
  | NList Ordered _ => j <= 3
  | _ => False
  end.
Fixpoint untabbed (n : node) : Prop :=
  match n with
  | Node v _ cs =>
      match v with
      | NParagraph | NThematicBreak | NTable _ => True
      | NCodeBlock info literal => forall k content calls failed, settles o B k info literal content calls failed ->
          Forall (fun l => tabbed l = false) (cm_lines content)
      | NBlockQuote | NAlert _ | NList _ _ | NItem | NTaskItem _ =>
          (fix all (l : list node) : Prop := match l with [] => True | c :: r => untabbed c /\ all r end) cs
      | _ => False
      end
  end.
(** The last line does not end with blanks, which would be cut off: it is text,
    or a fence. *)
Fixpoint ends_dark (n : node) : Prop :=
  match n with
  | Node v _ cs =>
      match v with
      | NParagraph | NCodeBlock _ _ => True
      | NBlockQuote | NAlert _ | NList _ _ | NItem | NTaskItem _ =>
          (fix final (l : list node) : Prop := match l with [] => False | c :: r => match r with [] => ends_dark c | _ => final r end end) cs
      | _ => False
      end
  end.
(** In a footnote of one paragraph there is no hard line break: that would be
    lost.  So would alerts, unless something else follows too. *)
Inductive good_note : node -> Prop :=
| gd_note : forall name p q ics x evs,
    name <> [] -> Forall (fun c => c <> c_rbr /\ is_blank_char c = false) name -> line_chars name ->
    inline_content U ENT o src (Node NParagraph q ics) = Ok (x, evs) -> definable_uses evs ->
    safe_text x -> ~ In c_nl x ->
    good_note (Node (NFootnoteDefinition name) p [Node NParagraph q ics])
| gd_notes : forall name p q ics cs,
    name <> [] -> Forall (fun c => c <> c_rbr /\ is_blank_char c = false) name -> line_chars name ->
    good (At 0 0 0) (Node NParagraph q ics) -> apart cs ->
    Forall (fun c => good (At 0 0 0) c /\ moves (S (byte_len name)) c /\ untabbed c /\ ends_dark c) cs ->
    Exists (fun c => forall a, node_value c <> NAlert a) cs ->
    good_note (Node (NFootnoteDefinition name) p (Node NParagraph q ics :: cs)).
Definition is_note (n : node) : bool := match node_value n with NFootnoteDefinition _ => true | _ => false end.
Definition note_name (n : node) : str := match node_value n with NFootnoteDefinition name => name | _ => [] end.
Definition main_part (cs : list node) : list node := filter (fun n => negb (is_note n)) cs.
Definition note_part (cs : list node) : list node := filter is_note cs.
Definition is_foot (b : block) : bool := match b with Foot _ _ => true | _ => false end.
Definition is_definition (b : block) : bool := match b with Define _ _ _ => true | _ => false end.
Definition is_main (b : block) : bool := negb (is_foot b || is_definition b).
(** The blocks of a document: everything but the footnotes in its order, and
    the footnotes between them in some order. *)
Definition same_document (cs : list node) (bs : list block) : Prop :=
  Forall2 (same 0) (main_part cs) (filter is_main bs)
  /\ exists ns, Permutation (note_part cs) ns /\ Forall2 same_note ns (filter is_foot bs).
(** HTML blocks at the end of the document, except for the last, are comments:
    nothing is written between them. *)
Record good_document (cs : list node) : Prop := {
  gt_children : Forall (fun n => good (At 0 0 0) n \/ good_note n) cs;
  gt_apart : apart (main_part cs);
  gt_names : NoDup (map note_name (note_part cs));
  gt_trailing : forall a n b l, cs = a ++ n :: b -> trails n b -> html_literal n l ->
    (exists m l', In m b /\ html_literal m l') -> comment_block (cm_lines l) = true
}.

(** [refers n r]: a link or an image in the text of [n] is written with a label
    and needs the definition [r]. *)
Inductive refers : node -> reference -> Prop :=
| rf_para : forall p cs x evs r, inline_content U ENT o src (Node NParagraph p cs) = Ok (x, evs) -> In (EvUse r) evs ->
    refers (Node NParagraph p cs) r
| rf_head : forall level p cs x evs r, collect_text U ENT o src (Node (NHeading level) p cs) = Ok (x, evs) -> In (EvUse r) evs ->
    refers (Node (NHeading level) p cs) r
| rf_cell : forall aligns p rows row c x evs r, In row rows -> In c (node_children row) ->
    inline_content U ENT o src c = Ok (x, evs) -> In (EvUse r) evs -> refers (Node (NTable aligns) p rows) r
| rf_in : forall v p cs c r,
    match v with NBlockQuote | NAlert _ | NList _ _ | NItem | NTaskItem _ | NFootnoteDefinition _
               | NDescriptionList | NDescriptionItem | NDescriptionTerm | NDescriptionDetails => True
               | _ => False end ->
    In c cs -> refers c r -> refers (Node v p cs) r.
End Structure.
