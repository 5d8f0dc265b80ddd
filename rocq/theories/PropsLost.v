(** Whole documents whose blocks do not stay where they were (C44), and items
    with lines wider than the limit (C07). *)
From Coq Require Import Bool Arith NArith Lia ZifyBool ZifyNat ZifyN String List.
From Verif Require Import Base OptsModel PunctModel WrapModel CodeModel TableModel AstModel StateModel InlineModel WarnModel
  SerModel SpecWrap SpecBlocks SpecStructure BlocksProof StructDoc PropsStructure.
Import ListNotations.

Definition pos (a b c d : nat) (v : value) (cs : list node) : node := Node v (mkPos a b c d) cs.
Definition word (t : string) (l a b : nat) : node := pos l a l b (NText (lit t)) [].
Definition cell (t : string) (l c : nat) : node := pos l c l c NTableCell [word t l c c].
(** A table of two columns at line [l], column [c]. *)
Definition table2 (l c : nat) : node :=
  pos l c (l + 2) (c + 8) (NTable [ANone; ANone])
    [pos l c l (c + 8) NTableRow [cell "a" l (c + 2); cell "b" l (c + 6)];
     pos (l + 2) c (l + 2) (c + 8) NTableRow [cell "c" (l + 2) (c + 2); cell "d" (l + 2) (c + 6)]].
Definition text_lines (l : list string) : str := flat_map (fun x => lit x ++ [c_nl]) l.
(** *** Tables *)
(** A table after the paragraph of an item is written at the end of the line of
    the paragraph: its first row becomes words of the paragraph, and so does
    everything after it.  (No table begins here: the line has three cells, the
    line after it two.) *)
Theorem C44_item_table_refuted : exists src cs,
  src = map lit ["- Text"; ""; "  | a | b |"; "  | - | - |"; "  | c | d |"]%string
  /\ cs = [pos 1 1 5 11 (NList Bullet false) [pos 1 1 5 11 NItem [pos 1 3 1 6 NParagraph [word "Text" 1 3 6]; table2 3 3]]]
  /\ out44 default_options src cs
     = Ok (text_lines [" -  Text| a   | b   |"; "| --- | --- |"; "| c   | d   |"; ""]%string).
Proof. do 2 eexists. split; [reflexivity|]. split; [reflexivity|]. vm_compute. reflexivity. Qed.
Print Assumptions C44_item_table_refuted.
(** A table in two block quotes (here alerts) loses one of them: every line of
    the table begins with two marks and is written with one. *)
Theorem C44_alert_table_refuted : exists src cs,
  src = map lit ["> [!NOTE]"; "> > [!TIP]"; "> > | a | b |"; "> > | - | - |"; "> > | c | d |"]%string
  /\ cs = [pos 1 1 5 13 (NAlert Note) [pos 2 3 5 13 (NAlert Tip) [table2 3 5]]]
  /\ out44 default_options src cs
     = Ok (text_lines ["> [!NOTE]"; "> > [!TIP]"; "> | a   | b   |"; "> | --- | --- |"; "> | c   | d   |"]%string).
Proof. do 2 eexists. split; [reflexivity|]. split; [reflexivity|]. vm_compute. reflexivity. Qed.
Print Assumptions C44_alert_table_refuted.
(** A table in description details leaves them after its first line. *)
Theorem C44_details_table_refuted : exists src cs,
  src = map lit ["Term"; ""; ":   | a | b |"; "    | - | - |"; "    | c | d |"]%string
  /\ cs = [pos 1 1 5 13 NDescriptionList [pos 1 1 5 13 NDescriptionItem
             [pos 1 1 1 4 NDescriptionTerm [pos 1 1 1 4 NParagraph [word "Term" 1 1 4]];
              pos 3 1 5 13 NDescriptionDetails [table2 3 5]]]]
  /\ out44 default_options src cs
     = Ok (text_lines ["Term"; ":   | a   | b   |"; "| --- | --- |"; "| c   | d   |"]%string).
Proof. do 2 eexists. split; [reflexivity|]. split; [reflexivity|]. vm_compute. reflexivity. Qed.
Print Assumptions C44_details_table_refuted.

(** *** HTML *)
(** Every line of the source is in a block quote, and a line of the output is
    not. *)
Definition unquoted (src : list str) (cs : list node) (line : string) : Prop :=
  Forall (fun l => hd_error l = Some c_gt) src
  /\ (exists q, cs = [q] /\ node_value q = NBlockQuote)
  /\ exists text, out44 default_options src cs = Ok text /\ In (lit line) (lines text) /\ hd_error (lit line) <> Some c_gt.
(** HTML in a block quote leaves the quote. *)
Theorem C44_quoted_html_refuted : exists src cs line, unquoted src cs line.
Proof.
  exists (map lit ["> <div>"; "> text"; "> </div>"]%string).
  exists [pos 1 1 3 8 NBlockQuote [pos 1 3 3 8 (NHtmlBlock (text_lines ["<div>"; "text"; "</div>"]%string)) []]], "text"%string.
  split; [vm_compute; repeat constructor|]. split; [eexists; split; reflexivity|]. eexists.
  split; [vm_compute; reflexivity|]. split; [right; left; reflexivity|discriminate].
Qed.
Print Assumptions C44_quoted_html_refuted.
(** So does a comment in a block quote, and the rest of the quote stays. *)
Theorem C44_quoted_comment_refuted : exists src cs line, unquoted src cs line.
Proof.
  exists (map lit ["> <!-- c -->"; "> text"]%string).
  exists [pos 1 1 2 6 NBlockQuote [pos 1 3 1 12 (NHtmlBlock (text_lines ["<!-- c -->"]%string)) [];
                                   pos 2 3 2 6 NParagraph [word "text" 2 3 6]]], "<!-- c -->"%string.
  split; [vm_compute; repeat constructor|]. split; [eexists; split; reflexivity|]. eexists.
  split; [vm_compute; reflexivity|]. split; [left; reflexivity|discriminate].
Qed.
Print Assumptions C44_quoted_comment_refuted.
(** A comment after the paragraph of an item becomes inline HTML in it. *)
Theorem C44_item_comment_refuted : exists src cs,
  src = map lit ["- Text"; ""; "  <!-- c -->"]%string
  /\ cs = [pos 1 1 3 12 (NList Bullet false) [pos 1 1 3 12 NItem
             [pos 1 3 1 6 NParagraph [word "Text" 1 3 6]; pos 3 3 3 12 (NHtmlBlock (text_lines ["<!-- c -->"]%string)) []]]]
  /\ out44 default_options src cs = Ok (text_lines [" -  Text<!-- c -->"; ""]%string).
Proof. do 2 eexists. split; [reflexivity|]. split; [reflexivity|]. vm_compute. reflexivity. Qed.
Print Assumptions C44_item_comment_refuted.

(** *** Lists *)
(** Ordered lists that only their delimiters keep apart become one list:
    <<
    1. a

    2) b
    >> *)
Theorem C44_adjacent_ordered_refuted : exists src cs, misread default_options src cs
  [SpecBlocks.List (NumberOf (lit "1") c_dot) [(None, [para (lit "a")]); (None, [para (lit "b")])]].
Proof.
  exists [lit "1. a"; []; lit "2) b"],
    [at44 1 (NList Ordered true) [item44 1 [par44 1 (lit "a")]]; at44 3 (NList Ordered true) [item44 3 [par44 3 (lit "b")]]].
  misread44.
Qed.
Print Assumptions C44_adjacent_ordered_refuted.

(** *** Width *)
(** The first line of an item is filled as if it had no marker: with words of
    four letters and a width of 80 it is 83 columns wide, and the last of its
    words would have had room on the next line. *)
Theorem C07_item_first_line_refuted : exists src cs text l,
  line_width default_options = 80
  /\ src = [lit "- word word word word word word word word word word word word word word word word endx"]
  /\ cs = [pos 1 1 1 86 (NList Bullet true) [pos 1 1 1 86 NItem [pos 1 3 1 86 NParagraph
             [word "word word word word word word word word word word word word word word word word endx" 1 3 86]]]]
  /\ out44 default_options src cs = Ok text /\ In l (lines text)
  /\ List.length l = 83 /\ Forall (fun w => List.length w <= 4) (words l).
Proof.
  do 4 eexists. split; [reflexivity|]. split; [reflexivity|]. split; [reflexivity|]. split; [vm_compute; reflexivity|].
  split; [left; reflexivity|]. split; [vm_compute; reflexivity|]. vm_compute. repeat constructor.
Qed.
Print Assumptions C07_item_first_line_refuted.
