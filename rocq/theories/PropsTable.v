(** Property C05: tables. *)
From Coq Require Import Bool Arith NArith Lia String List.
From Verif Require Import Base BaseFacts SpecInline EscapeModel EscapeProof CodeModel SpecCode CodeProof
  TableModel SpecTable TableProof.
Import ListNotations.

Ltac conjs := match goal with |- _ /\ _ => split; [|conjs] | _ => idtac end.

(** The content of a line of the table, inside a block quote or not. *)
Definition table_line (quote : bool) (l : str) : option str := if quote then strip_quote l else Some l.

(** C05: a table with at least one row, all rows as long as the alignment row
    (comrak fills and cuts rows so) and single-line cells, is written as a
    header line, a delimiter line and one line per further row.  All lines
    have the same display width; each has one delimiter pipe more than there
    are columns, under both readings of "escaped"; a GFM reader recovers the
    cells (pipes escaped, see C04) and the alignments. *)
Theorem C05_tables_aligned : forall U quote aligns rows,
  table_width_laws U ->
  rows <> [] ->
  Forall (fun r => List.length r = List.length aligns) rows ->
  Forall (Forall (Forall (fun c => c <> c_nl /\ c <> c_cr))) rows ->
  exists header delimiter body w,
    cm_lines (table_text U quote aligns rows) = header :: delimiter :: body
    /\ ends_with [c_nl] (table_text U quote aligns rows) = true
    /\ Forall (fun l => u_width U l = w) (header :: delimiter :: body)
    /\ Forall (fun l => pipes_prev false l = List.length aligns + 1
                        /\ pipes_parity false l = List.length aligns + 1) (header :: delimiter :: body)
    /\ Forall2 (fun cells l => exists l', table_line quote l = Some l'
                               /\ read_row l' = Some (map (fun c => trim_blank (escape_table_cell c)) cells))
               rows (header :: body)
    /\ exists l', table_line quote delimiter = Some l' /\ read_delimiter_row l' = Some aligns.
Proof.
  intros U quote aligns rows W Hne Hlen Hch. unfold table_text.
  destruct rows as [|r0 rows]; [congruence|]. clear Hne. cbn [map].
  set (e := map escape_table_cell). change (e r0 :: map (map escape_table_cell) rows) with (map e (r0 :: rows)).
  set (ws := col_widths U aligns (map e (r0 :: rows))).
  assert (Hlen' : Forall (fun r => List.length r = List.length aligns) (map e (r0 :: rows))).
  { apply Forall_forall. intros x Hx. apply in_map_iff in Hx. destruct Hx as (r & <- & Hr).
    unfold e. rewrite map_length. rewrite Forall_forall in Hlen. auto. }
  destruct (col_widths_ok U aligns (map e (r0 :: rows)) Hlen') as (Lw & Gw & Cw). fold ws in Lw, Gw, Cw.
  set (q := if quote then lit "> " else []).
  set (line := fun r => q ++ [c_pipe] ++ row_cells_text U ws aligns (e r)).
  set (dline := q ++ [c_pipe] ++ delimiter_cells_text ws aligns).
  assert (Hq : Forall line_char q) by (unfold q; destruct quote; repeat constructor; discriminate).
  assert (Hp1 : Forall line_char [c_pipe]) by (repeat constructor; discriminate).
  assert (Hline : forall r, In r (r0 :: rows) -> Forall line_char (line r)).
  { intros r Hr. unfold line. repeat (apply Forall_app; split); auto. apply row_chars. unfold e.
    apply Forall_forall. intros x Hx. apply in_map_iff in Hx. destruct Hx as (c & <- & Hc).
    apply (escape_cell_chars line_char (List.length c)); auto; [split; discriminate|].
    rewrite Forall_forall in Hch. specialize (Hch r Hr). rewrite Forall_forall in Hch. apply Hch. auto. }
  assert (Hdl : Forall line_char dline) by (unfold dline; repeat (apply Forall_app; split); auto using delim_chars).
  assert (Erow : forall r, row_text U quote ws aligns (e r) = line r ++ [c_nl]).
  { intros. unfold row_text, line. fold q. rewrite <- !app_assoc. reflexivity. }
  assert (Eflat : flat_map (row_text U quote ws aligns) (map e rows) = flat_map (fun r => line r ++ [c_nl]) rows).
  { clear - Erow. clearbody ws line. induction rows as [|r rs IH]; auto. cbn [map flat_map]. rewrite IH, Erow. reflexivity. }
  cbn [map]. change (map (map escape_table_cell) rows) with (map e rows).
  change (col_widths U aligns (e r0 :: map e rows)) with ws. rewrite Erow, Eflat.
  assert (Eall : (line r0 ++ [c_nl]) ++ ((if quote then lit "> " else []) ++ [c_pipe] ++ delimiter_cells_text ws aligns ++ [c_nl])
      ++ flat_map (fun r => line r ++ [c_nl]) rows
    = line r0 ++ c_nl :: (dline ++ c_nl :: (flat_map (fun r => line r ++ [c_nl]) rows ++ []))).
  { fold q. unfold dline. rewrite app_nil_r, <- !app_assoc. reflexivity. }
  rewrite Eall. exists (line r0), dline, (map line rows), (u_width U q + S (cells_width ws)).
  assert (Wq : forall s, u_width U (q ++ c_pipe :: s) = u_width U q + u_width U (c_pipe :: s)).
  { intros s. unfold q. destruct quote; cbn [app]; [|rewrite (width_nil U W); reflexivity].
    change (lit "> " ++ c_pipe :: s) with ([c_gt] ++ c_sp :: c_pipe :: s). rewrite (width_sp U W).
    change (lit "> ") with ([c_gt] ++ c_sp :: []). rewrite (width_sp U W), (width_nil U W). lia. }
  assert (Pq : forall s, pipes_prev false (q ++ s) = pipes_prev false s /\ pipes_parity false (q ++ s) = pipes_parity false s).
  { intros. unfold q. destruct quote; split; reflexivity. }
  assert (Tq : forall s, table_line quote (q ++ s) = Some s).
  { intros. unfold table_line, q. destruct quote; reflexivity. }
  conjs.
  - rewrite cm_lines_line by (apply Hline; left; auto). rewrite cm_lines_line by auto.
    rewrite (cm_lines_flat line); [cbn; rewrite app_nil_r; reflexivity|].
    apply Forall_forall. intros r Hr. apply Hline. right; auto.
  - apply ends_with_true. rewrite app_nil_r.
    assert (K : exists t, dline ++ c_nl :: flat_map (fun r => line r ++ [c_nl]) rows = t ++ [c_nl]).
    { destruct rows as [|r1 rs]; [exists dline; reflexivity|].
      assert (G : forall r1 rs, exists t, flat_map (fun r => line r ++ [c_nl]) (r1 :: rs) = t ++ [c_nl]).
      { clear. clearbody line. intros x xs. revert x. induction xs as [|y xs IH]; intros x.
        - exists (line x). cbn. rewrite app_nil_r. reflexivity.
        - destruct (IH y) as [t Ht]. exists ((line x ++ [c_nl]) ++ t).
          cbn [flat_map] in *. rewrite Ht, <- !app_assoc. reflexivity. }
      destruct (G r1 rs) as [t Ht]. exists (dline ++ c_nl :: t). rewrite <- app_assoc. cbn [app]. f_equal. f_equal. exact Ht. }
    destruct K as [t Ht]. rewrite Ht. exists (line r0 ++ c_nl :: t). rewrite <- app_assoc. reflexivity.
  - assert (K : forall r, In r (r0 :: rows) -> u_width U (line r) = u_width U q + S (cells_width ws)).
    { intros r Hr. unfold line. cbn [app]. rewrite Wq. f_equal. apply pipe_row_width; auto.
      rewrite Forall_forall in Cw. apply Cw. apply in_map. auto. }
    constructor; [apply K; left; auto|]. constructor.
    + unfold dline. cbn [app]. rewrite Wq. f_equal. apply pipe_delim_width; auto.
    + apply Forall_forall. intros l Hl. apply in_map_iff in Hl. destruct Hl as (r & <- & Hr). apply K. right; auto.
  - assert (K : forall r, In r (r0 :: rows) ->
      pipes_prev false (line r) = List.length aligns + 1 /\ pipes_parity false (line r) = List.length aligns + 1).
    { intros r Hr. unfold line. destruct (Pq ([c_pipe] ++ row_cells_text U ws aligns (e r))) as [-> ->].
      rewrite Forall_forall in Hlen. specialize (Hlen r Hr). rewrite <- Hlen.
      cbn [app pipes_prev pipes_parity]. change (ceq c_pipe c_bs) with false. change (ceq c_pipe c_pipe) with true. cbn [andb negb]. cbn iota. unfold e.
      destruct (row_pipes U ws aligns r false) as [-> ->]. split; apply Nat.add_comm. }
    constructor; [apply K; left; auto|]. constructor.
    + unfold dline. destruct (Pq ([c_pipe] ++ delimiter_cells_text ws aligns)) as [-> ->].
      cbn [app pipes_prev pipes_parity]. change (ceq c_pipe c_bs) with false. change (ceq c_pipe c_pipe) with true. cbn [andb negb]. cbn iota.
      destruct (delimiter_pipes aligns ws false) as [-> ->]. split; lia.
    + apply Forall_forall. intros l Hl. apply in_map_iff in Hl. destruct Hl as (r & <- & Hr). apply K. right; auto.
  - assert (K : forall r, exists l', table_line quote (line r) = Some l'
                /\ read_row l' = Some (map (fun c => trim_blank (escape_table_cell c)) r)).
    { intros r. eexists. split; [apply Tq|]. apply read_row_row. }
    constructor; auto. clear - K. clearbody line. generalize rows. intro l. induction l; cbn; constructor; auto.
  - eexists. split; [apply Tq|]. apply read_delimiter; auto.
Qed.
Print Assumptions C05_tables_aligned.

Lemma uni_ascii_table_width : table_width_laws uni_ascii.
Proof. split; cbn; intros; auto. rewrite app_length. cbn. lia. Qed.
Example C05_example :
  table_width_laws uni_ascii
  /\ table_text uni_ascii true [ANone; ARight; ACenter] [[lit "a"; lit "long head"; lit "c|d"]; [lit "x"; lit "y"; lit "z"]]
     = lit "> | a   | long head | c\|d |" ++ [c_nl]
       ++ lit "> | --- | --------: | :--: |" ++ [c_nl]
       ++ lit "> | x   |         y |  z   |" ++ [c_nl].
Proof. split; [apply uni_ascii_table_width|vm_compute; reflexivity]. Qed.

(** Every source-column warning is about a line of the table whose number of
    unescaped pipes fits neither a full row nor a row without an outer pipe. *)
Theorem C33_table_warnings : forall source start_line end_line cols tl w,
  In w (check_table_source_columns source start_line end_line cols tl) ->
  start_line <= warn_line w <= end_line
  /\ exists line, nth_error source (warn_line w - 1) = Some line
     /\ 1 <= warn_line w
     /\ (cols + 1 < pipes_prev false line \/ pipes_prev false line < cols)
     /\ ~ Forall (fun c => c = c_pipe \/ c = c_dash \/ c = c_colon \/ c = c_sp) line.
Proof.
  intros source a b cols tl w. unfold check_table_source_columns.
  destruct ((a =? 0) || (b =? 0)) eqn:E; [intros []|]. apply orb_false_iff in E. destruct E as [Ea Eb].
  apply Nat.eqb_neq in Ea, Eb. intro H. apply in_flat_map in H. destruct H as (n & Hn & H).
  apply in_seq in Hn. destruct (nth_error source (n - 1)) as [line|] eqn:El; [|destruct H].
  unfold table_line_warning in H.
  destruct (forallb _ line) eqn:Ef; [destruct H|].
  assert (Hf : ~ Forall (fun c => c = c_pipe \/ c = c_dash \/ c = c_colon \/ c = c_sp) line).
  { intro K. assert (forallb (fun c => ceq c c_pipe || ceq c c_dash || ceq c c_colon || ceq c c_sp) line = true); [|congruence].
    apply forallb_forall. rewrite Forall_forall in K. intros x Hx. specialize (K x Hx).
    rewrite !orb_true_iff, !ceq_true. tauto. }
  assert (Hc : count_unescaped_pipes line = pipes_prev false line).
  { unfold count_unescaped_pipes. clear. assert (G : forall l p, count_unescaped_pipes_from p l
      = pipes_prev (match p with Some x => ceq x c_bs | None => false end) l).
    { induction l as [|c l IH]; intros p; auto. cbn. rewrite IH. reflexivity. }
    apply G. }
  cbv zeta in H. rewrite Hc in H.
  destruct (Nat.ltb_spec (cols + 1) (pipes_prev false line)).
  - destruct H as [<-|[]]. cbn [warn_line]. split; [lia|]. exists line. conjs; auto. lia.
  - destruct (Nat.ltb_spec (pipes_prev false line) cols); [|destruct H].
    destruct H as [<-|[]]. cbn [warn_line]. split; [lia|]. exists line. conjs; auto. lia.
Qed.
Print Assumptions C33_table_warnings.
Example C33_table_warning_example :
  map warn_line (check_table_source_columns [lit "| a | b |"; lit "|---|---|"; lit "| `x|y` | z |"] 1 3 2 1) = [3].
Proof. vm_compute. reflexivity. Qed.
