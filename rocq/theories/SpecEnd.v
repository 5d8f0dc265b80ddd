(** How a document ends (C40).  Independent of how blocks are written. *)
From Coq Require Import Bool Arith NArith String List.
From Verif Require Import Base OptsModel HeadingModel AstModel StateModel SpecState SpecContext SpecSafe.
Import ListNotations.

(** The text ends in exactly one newline. *)
Definition ends_once (s : str) : Prop := exists x c, s = x ++ [c; c_nl] /\ c <> c_nl.

(** Characters inline content may be given as its last one: delimiters, and
    what punctuation is replaced by. *)
Definition marks : list char :=
  [c_bt; c_star; c_us; c_rbr; c_rpar; c_gt; c_semi;
   c_emdash; c_endash; c_ellipsis; c_ldq; c_rdq; c_lsq; c_rsq].

(** Inline content whose last character, where it is its own, satisfies [P].
    In a title, HTML and footnote references do not count. *)
Inductive firm (P : char -> Prop) (title : bool) : node -> Prop :=
| fi_text : forall x c p cs, P c -> firm P title (Node (NText (x ++ [c])) p cs)
| fi_code : forall l p cs, firm P title (Node (NCode l) p cs)
| fi_emph : forall p cs, firm P title (Node NEmph p cs)
| fi_strong : forall p cs, firm P title (Node NStrong p cs)
| fi_link : forall url t p cs, firm P title (Node (NLink url t) p cs)
| fi_image : forall url t p cs, firm P title (Node (NImage url t) p cs)
| fi_note : forall name p cs, title = false -> firm P title (Node (NFootnoteReference name) p cs)
| fi_html : forall x c p cs, title = false -> P c -> firm P title (Node (NHtmlInline (x ++ [c])) p cs)
| fi_other : forall p pre c, firm P title c -> firm P title (Node NOther p (pre ++ [c])).

(** Neither white space nor U+0000. *)
Definition dark (c : char) : Prop := is_ws c = false /\ c <> Base.c_nul.
(** Text that ends in [c] takes space on the screen. *)
Definition visible (U : Uni) (c : char) : Prop := forall x, 1 <= u_width U (x ++ [c]).

Section Tidy.
Variable U : Uni.
Variable o : Options.
Variable src : list str.

(** Headings of this level are underlined. *)
Definition underlined (level : nat) : Prop :=
  (level = 1 /\ setext_h1 o = true) \/ (level = 2 /\ setext_h2 o = true).
(** The paragraph is not taken for an abbreviation. *)
Definition unabbreviated (p : sourcepos) : Prop :=
  forall s, extract_source src p = Ok (Some s) -> forall a b, s <> a ++ lit "*[" ++ b.
Definition list_entry (v : value) : Prop := v = NItem \/ exists m, v = NTaskItem m.
Definition contains_blocks (v : value) : Prop :=
  v = NBlockQuote \/ (exists a, v = NAlert a) \/ exists k t, v = NList k t.

(** A block that brings its own end of line, and nothing after it. *)
Inductive tidy : node -> Prop :=
| td_paragraph : forall p pre c, firm dark false c -> tidy (Node NParagraph p (pre ++ [c]))
| td_atx : forall level p pre c, heading_sentence_case o = false -> ~ underlined level ->
    firm (fun c => c <> c_nl) true c -> tidy (Node (NHeading level) p (pre ++ [c]))
| td_atx_empty : forall level p, heading_sentence_case o = false -> ~ underlined level -> tidy (Node (NHeading level) p [])
| td_setext : forall level p pre c, heading_sentence_case o = false -> underlined level ->
    Forall (visible U) marks -> firm (visible U) true c -> tidy (Node (NHeading level) p (pre ++ [c]))
| td_code : forall info l p cs, tidy (Node (NCodeBlock info l) p cs)
| td_table : forall aligns p row cs, tidy (Node (NTable aligns) p (row :: cs))
| td_break : forall p cs x c, thematic_break_style o = x ++ [c] -> c <> c_nl -> tidy (Node NThematicBreak p cs)
| td_html : forall l p cs, ends_once l -> tidy (Node (NHtmlBlock l) p cs)
| td_quote : forall p pre c, tidy c -> tidy (Node NBlockQuote p (pre ++ [c]))
| td_alert : forall a p pre c, tidy c -> tidy (Node (NAlert a) p (pre ++ [c]))
| td_alert_empty : forall a p, tidy (Node (NAlert a) p [])
| td_list_empty : forall kind tight p pre v q, list_entry v -> tidy (Node (NList kind tight) p (pre ++ [Node v q []]))
| td_list_paragraph : forall kind tight p pre v q pre' r pre'' c, list_entry v -> firm dark false c -> unabbreviated r ->
    tidy (Node (NList kind tight) p (pre ++ [Node v q (pre' ++ [Node NParagraph r (pre'' ++ [c])])]))
| td_list_code : forall kind tight p pre v q pre' info l r cs, list_entry v ->
    tidy (Node (NList kind tight) p (pre ++ [Node v q (pre' ++ [Node (NCodeBlock info l) r cs])]))
| td_list_block : forall kind tight p pre v q pre' c, list_entry v -> contains_blocks (node_value c) -> tidy c ->
    tidy (Node (NList kind tight) p (pre ++ [Node v q (pre' ++ [c])]))
| td_description : forall p pre q pre' r pre'' c, tidy c ->
    tidy (Node NDescriptionList p (pre ++ [Node NDescriptionItem q (pre' ++ [Node NDescriptionDetails r (pre'' ++ [c])])])).
End Tidy.

(** A block in which something other than white space is written. *)
Inductive inked : node -> Prop :=
| ik_paragraph : forall p pre c, firm dark false c -> inked (Node NParagraph p (pre ++ [c]))
| ik_code : forall info l p cs, inked (Node (NCodeBlock info l) p cs)
| ik_table : forall aligns p row cs, inked (Node (NTable aligns) p (row :: cs))
| ik_alert : forall a p cs, inked (Node (NAlert a) p cs)
| ik_quote : forall p cs c, In c cs -> inked c -> inked (Node NBlockQuote p cs)
| ik_list : forall kind tight p items v q cs c, In (Node v q cs) items -> list_entry v -> In c cs -> inked c ->
    inked (Node (NList kind tight) p items).

(** Every link below [n] goes to a URL that does not end in a newline. *)
Definition links_on_line (n : node) : Prop := forall m url title, within m n ->
  node_value m = NLink url title \/ node_value m = NImage url title -> ~ exists x, url = x ++ [c_nl].
(** Every footnote below [n] is one run of words. *)
Definition notes_plain (n : node) : Prop := forall m name, within m n -> node_value m = NFootnoteDefinition name -> plain_note m.
(** A footnote that says something, and in which none is defined but plain
    ones. *)
Definition filled_note (n : node) : Prop :=
  (exists name, node_value n = NFootnoteDefinition name) /\ (exists c, In c (node_children n) /\ inked c)
  /\ Forall notes_plain (node_children n).
(** The directive does not stop formatting. *)
Definition formats (d : directive) : Prop :=
  d = Enable \/ (exists l, d = ProperNouns l) \/ exists l, d = CommonNouns l.
