(** Properties C01, C02, C04, C41: escaping. *)
From Coq Require Import Bool Arith NArith String Wf_nat List.
From Verif Require Import Base BaseFacts EscapeModel SpecInline EscapeProof.
Import ListNotations.


(** C01: for every text, reading the escaped text back with CommonMark
    backslash escapes gives the text, and no '*', '_', '`' or backslash in it
    has syntactic force. *)
Theorem C01_escape_text_reads_back : forall t : str,
  cm_unescape (escape_text t) = t
  /\ forall c, In c [c_star; c_us; c_bt; c_bs] -> ~ active c (escape_text t).
Proof.
  intro t. split; [apply escape_text_roundtrip|].
  intros c H. apply escape_text_inert. simpl in *. tauto.
Qed.
Print Assumptions C01_escape_text_reads_back.
Example C01_example :
  escape_text (lit "a*b_[x](y)\`[") = lit "a\*b\_\[x\](y)\\\`["
  /\ cm_unescape (lit "a\*b\_\[x\](y)\\\`[") = lit "a*b_[x](y)\`[".
Proof. split; vm_compute; reflexivity. Qed.

(** C02: a code span reads back as its content, whatever follows (as long as
    it is not a backtick), and closes exactly at its end.  The content must
    be non-empty, on one line, and must not both start and end with a space
    (all-space content is fine). *)
Theorem C02_code_span_reads_back : forall content rest : str,
  content <> [] -> ~ In c_nl content ->
  ~ (((exists r, content = c_sp :: r) /\ (exists a, content = a ++ [c_sp])) /\ all_spaces content = false) ->
  (forall c r, rest = c :: r -> c <> c_bt) ->
  parse_code_span (format_code_span content ++ rest) = Some (content, rest).
Proof. exact format_code_span_roundtrip. Qed.
Print Assumptions C02_code_span_reads_back.
Example C02_example :
  parse_code_span (format_code_span (lit "`a``b ```") ++ lit " tail") = Some (lit "`a``b ```", lit " tail")
  /\ format_code_span (lit "`a``b ```") = lit "```` `a``b ``` ````".
Proof. split; vm_compute; reflexivity. Qed.

(** The excluded contents really fail: one space is lost on each side. *)
Theorem C02_both_end_spaces_refuted : exists content : str,
  content <> [] /\ ~ In c_nl content
  /\ parse_code_span (format_code_span content) <> Some (content, []).
Proof.
  exists (lit " a "). repeat split; try discriminate.
  - vm_compute. intros [H|[H|[H|[]]]]; discriminate.
Qed.
Print Assumptions C02_both_end_spaces_refuted.

(** C04: no delimiter pipe remains in an escaped cell, under both readings of
    "escaped" and whatever precedes the cell; escaping is idempotent; the
    text a GFM reader recovers is the text of the original cell; nothing
    happens to the cell but backslashes being inserted before pipes. *)
Inductive only_escapes_pipes : str -> str -> Prop :=
| oep_nil : only_escapes_pipes [] []
| oep_keep : forall c s o, only_escapes_pipes s o -> only_escapes_pipes (c :: s) (c :: o)
| oep_pipe : forall s o, only_escapes_pipes s o -> only_escapes_pipes (c_pipe :: s) (c_bs :: c_pipe :: o).
Lemma cell_only_escapes : forall s, only_escapes_pipes s (escape_table_cell s).
Proof.
  intro s. remember (List.length s) as n eqn:E. revert s E. induction n as [n IH] using lt_wf_ind. intros s ->.
  destruct s as [|c r]; [constructor|]. cbn [escape_table_cell].
  destruct (ceq c c_bs).
  - destruct r as [|d r']; [repeat constructor|]. constructor. constructor. apply (IH (List.length r')); cbn; auto.
  - destruct (ceq_spec c c_pipe); [subst|]; constructor; apply (IH (List.length r)); cbn; auto.
Qed.
Theorem C04_table_cell_escaping : forall s : str,
  pipes_parity false (escape_table_cell s) = 0
  /\ (forall b, pipes_prev b (escape_table_cell s) = 0)
  /\ escape_table_cell (escape_table_cell s) = escape_table_cell s
  /\ cm_unescape (unescape_pipes (escape_table_cell s)) = cm_unescape s
  /\ only_escapes_pipes s (escape_table_cell s).
Proof.
  intro s. repeat split; [| | | |apply cell_only_escapes].
  - apply cell_no_pipe_parity.
  - intro b. apply cell_no_pipe_prev.
  - apply cell_idem.
  - apply cell_text.
Qed.
Print Assumptions C04_table_cell_escaping.
Example C04_example :
  escape_table_cell (lit "a|b\|c\\|d\") = lit "a\|b\|c\\\|d\".
Proof. vm_compute. reflexivity. Qed.

(** The pipe counter of the table code agrees with the cmark-gfm reading. *)
Theorem C04_pipe_counter_agrees : forall line : str,
  count_unescaped_pipes line = pipes_prev false line.
Proof. intro line. exact (count_unescaped_pipes_prev line None). Qed.
Print Assumptions C04_pipe_counter_agrees.
Example C04_counter_example : count_unescaped_pipes (lit "| a \| b | c |") = 3.
Proof. reflexivity. Qed.

(** Inside code, where backslashes are literal, a backslash before a pipe is
    lost when the table is read back. *)
Theorem C04_code_in_cell_refuted : exists s : str,
  unescape_pipes (escape_table_cell s) <> s.
Proof. exists (lit "\|"). vm_compute. discriminate. Qed.
Print Assumptions C04_code_in_cell_refuted.

(** C41: plain text can still be read back as an inline link. *)
Theorem C41_text_never_forms_link_refuted : exists t : str,
  forms_link 0 (cm_scan (escape_text t)) = true.
Proof. exists (lit "[[a [[b]](c)"). vm_compute. reflexivity. Qed.
Print Assumptions C41_text_never_forms_link_refuted.
