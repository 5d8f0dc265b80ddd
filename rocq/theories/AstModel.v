(** The syntax tree hongdown receives from comrak, restricted to what the
    serializer reads (src/serializer/mod.rs:512-697). *)
From Coq Require Import Bool Arith NArith String List.
From Verif Require Import Base TableModel.
Import ListNotations.

(** Operations that may panic in Rust. *)
Inductive res (A : Type) := Ok (a : A) | Panic.
Arguments Ok {A}. Arguments Panic {A}.

Definition rbind {A B} (m : res A) (f : A -> res B) : res B :=
  match m with Ok a => f a | Panic => Panic end.

(** comrak's [Sourcepos]: 1-based lines and byte columns, both inclusive. *)
Record sourcepos := mkPos { start_line : nat; start_col : nat; end_line : nat; end_col : nat }.

(** comrak's [ListType] and [AlertType]. *)
Inductive list_kind := Bullet | Ordered.
Inductive alert_kind := Note | Tip | Important | Caution | Warn.

(** comrak's [NodeValue].  Fields the serializer does not read are left out;
    [NOther] stands for every variant handled by the catch-all arm
    (mod.rs:692-695). *)
Inductive value :=
| NDocument
| NFrontMatter (content : str)
| NBlockQuote
| NList (kind : list_kind) (tight : bool)
| NItem
| NTaskItem (symbol : option char)
| NDescriptionList
| NDescriptionItem
| NDescriptionTerm
| NDescriptionDetails
| NCodeBlock (info literal : str)
| NHtmlBlock (literal : str)
| NParagraph
| NHeading (level : nat)
| NThematicBreak
| NFootnoteDefinition (name : str)
| NTable (aligns : list alignment)
| NTableRow
| NTableCell
| NText (text : str)
| NSoftBreak
| NLineBreak
| NCode (literal : str)
| NHtmlInline (html : str)
| NEmph
| NStrong
| NLink (url title : str)
| NImage (url title : str)
| NFootnoteReference (name : str)
| NAlert (kind : alert_kind)
| NOther.

Inductive node := Node (v : value) (p : sourcepos) (children : list node).

Definition node_value (n : node) : value := match n with Node v _ _ => v end.
Definition node_pos (n : node) : sourcepos := match n with Node _ p _ => p end.
Definition node_children (n : node) : list node := match n with Node _ _ cs => cs end.

(** [matches!(&child.data.borrow().value, ...)] *)
Definition is_list (n : node) : bool := match node_value n with NList _ _ => true | _ => false end.
Definition is_image (n : node) : bool := match node_value n with NImage _ _ => true | _ => false end.
Definition is_paragraph (n : node) : bool := match node_value n with NParagraph => true | _ => false end.
Definition is_html_block (n : node) : bool := match node_value n with NHtmlBlock _ => true | _ => false end.
Definition is_heading (n : node) : bool := match node_value n with NHeading _ => true | _ => false end.
Definition is_front_matter (n : node) : bool := match node_value n with NFrontMatter _ => true | _ => false end.
Definition is_footnote_def (n : node) : bool :=
  match node_value n with NFootnoteDefinition _ => true | _ => false end.

(** Apply [f] to every child together with its next sibling. *)
Definition with_next {A} (f : option node -> node -> A) : list node -> list A :=
  fix go (l : list node) : list A :=
    match l with
    | [] => []
    | c :: r => f (hd_error r) c :: go r
    end.
