(** Tables and HTML blocks as the reader of [SpecBlocks] sees them. *)
From Coq Require Import Bool Arith NArith Lia ZifyBool ZifyNat ZifyN String List.
From Verif Require Import Base BaseFacts WrapModel SpecWrap WrapProof OptsModel EscapeModel EscapeProof CodeModel HeadingModel TableModel SpecTable TableProof SpecCode SpecHeading
  SpecRefs SpecBlocks CodeProof BlocksProof ParaProof NestProof SpecEnd SpecStructure.
From Verif Require SpecInline.
Import ListNotations.

(** ** Cells *)
Lemma cell_bare : forall x, SpecInline.unescape_pipes (escape_table_cell x) = bare_pipes x.
Proof.
  apply cell_ind; try reflexivity.
  - intros d r IH. rewrite etc_bs. cbn [bare_pipes]. rewrite ceq_refl. destruct (ceq_spec d c_pipe) as [->|N].
    + rewrite up_bs_pipe, IH. reflexivity.
    + rewrite up_bs by (intros r' Q; injection Q as Q _; congruence). f_equal. destruct (ceq_spec d c_bs) as [->|Nb].
      * rewrite up_bs by (intros; apply cell_head). rewrite IH. reflexivity.
      * rewrite up_cons by exact Nb. rewrite IH. reflexivity.
  - intros r IH. rewrite etc_pipe, up_bs_pipe, IH. cbn [bare_pipes]. reflexivity.
  - intros c r N1 N2 IH. rewrite etc_other, up_cons by assumption. rewrite IH. cbn [bare_pipes]. apply ceq_false in N1. rewrite N1. reflexivity.
Qed.
Lemma cell_last : forall x, x <> [] -> last (escape_table_cell x) 0%N = last x 0%N.
Proof.
  apply (cell_ind (fun x => x <> [] -> last (escape_table_cell x) 0%N = last x 0%N)); try congruence.
  - reflexivity.
  - intros d r IH _. rewrite etc_bs. destruct r as [|e r]; [reflexivity|].
    change (last (c_bs :: d :: e :: r) 0%N) with (last (e :: r) 0%N). rewrite <- IH by discriminate.
    destruct (escape_table_cell (e :: r)) eqn:Q; [|reflexivity].
    exfalso. revert Q. cbn [escape_table_cell]. destruct (ceq e c_bs); [destruct r; discriminate|]. destruct (ceq e c_pipe); discriminate.
  - intros r IH _. rewrite etc_pipe. destruct r as [|e r]; [reflexivity|].
    change (last (c_pipe :: e :: r) 0%N) with (last (e :: r) 0%N). rewrite <- IH by discriminate.
    destruct (escape_table_cell (e :: r)) eqn:Q; [|reflexivity].
    exfalso. revert Q. cbn [escape_table_cell]. destruct (ceq e c_bs); [destruct r; discriminate|]. destruct (ceq e c_pipe); discriminate.
  - intros c r N1 N2 IH _. rewrite etc_other by assumption. destruct r as [|e r]; [reflexivity|].
    change (last (c :: e :: r) 0%N) with (last (e :: r) 0%N). rewrite <- IH by discriminate.
    destruct (escape_table_cell (e :: r)) eqn:Q; [|reflexivity].
    exfalso. revert Q. cbn [escape_table_cell]. destruct (ceq e c_bs); [destruct r; discriminate|]. destruct (ceq e c_pipe); discriminate.
Qed.
Lemma trim_blank_ends : forall x, trim_blank x = x <-> x = [] \/ is_blank_char (hd 0%N x) = false /\ is_blank_char (last x 0%N) = false.
Proof.
  intro x. split.
  - intro E. destruct x as [|c x]; [left; reflexivity|]. right. unfold trim_blank in E.
    assert (H1 : is_blank_char c = false).
    { destruct (is_blank_char c) eqn:Q; [|reflexivity]. exfalso. cbn [drop_while] in E. rewrite Q in E.
      assert (L : List.length (drop_while_end is_blank_char (drop_while is_blank_char x)) <= List.length x).
      { clear. assert (D : forall y, List.length (drop_while is_blank_char y) <= List.length y).
        { induction y as [|a y IH]; [constructor|]. cbn [drop_while]. destruct (is_blank_char a); cbn [List.length]; lia. }
        unfold drop_while_end. rewrite rev_length. pose proof (D (rev (drop_while is_blank_char x))) as D1. rewrite rev_length in D1. pose proof (D x). lia. }
      rewrite E in L. cbn [List.length] in L. lia. }
    split; [exact H1|]. cbn [drop_while] in E. rewrite H1 in E. destruct (@exists_last _ (c :: x) ltac:(discriminate)) as (y & z & Eq). rewrite Eq in *. rewrite last_last.
    unfold drop_while_end in E. rewrite rev_app_distr in E. cbn [rev app drop_while] in E. destruct (is_blank_char z) eqn:Q; [|reflexivity]. exfalso.
    apply (f_equal (@List.length char)) in E. rewrite rev_length, app_length in E. cbn [List.length] in E.
    assert (D : forall y, List.length (drop_while is_blank_char y) <= List.length y).
    { clear. induction y as [|a y IH]; [constructor|]. cbn [drop_while]. destruct (is_blank_char a); cbn [List.length]; lia. }
    pose proof (D (rev y)) as D1. rewrite rev_length in D1. unfold str, char in *. lia.
  - intros [->|[H1 H2]]; [reflexivity|]. destruct x as [|c x]; [reflexivity|]. unfold trim_blank. cbn [hd] in H1. cbn [drop_while]. rewrite H1.
    destruct (@exists_last _ (c :: x) ltac:(discriminate)) as (y & z & Eq). rewrite Eq in *. rewrite last_last in H2. unfold drop_while_end. rewrite rev_app_distr.
    cbn [rev app drop_while]. rewrite H2. cbn [rev]. rewrite rev_involutive. reflexivity.
Qed.
Lemma trim_escaped : forall x, trim_blank x = x -> trim_blank (escape_table_cell x) = escape_table_cell x.
Proof.
  intros x H. apply trim_blank_ends in H. apply trim_blank_ends. destruct x as [|c x]; [left; reflexivity|]. right. destruct H as [H|[H1 H2]]; [discriminate|].
  split; [|rewrite cell_last by discriminate; exact H2]. cbn [hd] in H1. cbn [escape_table_cell]. destruct (ceq c c_bs) eqn:Q; [destruct x; cbn [hd]; exact H1|].
  destruct (ceq c c_pipe); cbn [hd]; [reflexivity|exact H1].
Qed.
Lemma read_cells : forall U ws aligns cells, Forall (fun x => trim_blank x = x) cells ->
  read_row (c_pipe :: row_cells_text U ws aligns (map escape_table_cell cells)) = Some (map escape_table_cell cells).
Proof.
  intros U ws aligns cells F. rewrite read_row_row. f_equal. apply map_ext_in. intros x I. apply trim_escaped. rewrite Forall_forall in F. apply F, I.
Qed.
Lemma fit_cells : forall n cells, List.length cells = n -> fit n (map escape_table_cell cells) = map bare_pipes cells.
Proof.
  intros n cells <-. unfold fit. rewrite map_map. rewrite (map_ext _ bare_pipes) by (intro; apply cell_bare).
  rewrite firstn_app, map_length, Nat.sub_diag. cbn [firstn]. rewrite app_nil_r. rewrite firstn_all2; [reflexivity|]. rewrite map_length. apply le_n.
Qed.

(** ** Tables *)
Section Tables.
Variable U : Uni.
Variable aligns : list alignment.
Definition row_line (ws : list nat) (cells : list str) : str := c_pipe :: row_cells_text U ws aligns (map escape_table_cell cells).
Definition rule_row (ws : list nat) : str := c_pipe :: delimiter_cells_text ws aligns.
Definition table_lines (rows : list (list str)) : list str :=
  let ws := col_widths U aligns (map (map escape_table_cell) rows) in
  match rows with [] => [] | h :: body => row_line ws h :: rule_row ws :: map (row_line ws) body end.
Lemma table_written : forall (q : bool) rows,
  table_text U q aligns rows = text_of (map (app (if q then lit "> " else [])) (table_lines rows)).
Proof.
  intros q rows. unfold table_text, table_lines. destruct rows as [|h body]; [reflexivity|].
  change (map (map escape_table_cell) (h :: body)) with (map escape_table_cell h :: map (map escape_table_cell) body).
  cbv beta iota zeta. set (ws := col_widths U aligns _). clearbody ws. set (pre := if q then lit "> " else []).
  cbn [map]. unfold text_of. cbn [flat_map]. unfold row_text at 1. fold pre. unfold row_line at 1, rule_row. rewrite <- !app_assoc. cbn [app]. f_equal. f_equal. f_equal. f_equal.
  f_equal. f_equal. f_equal. f_equal. induction body as [|r body IH]; [reflexivity|]. cbn [map flat_map]. rewrite IH. f_equal. unfold row_text. fold pre. unfold row_line. rewrite <- !app_assoc. reflexivity.
Qed.
Lemma pipe_line : forall t, is_blank (c_pipe :: t) = false /\ margin (c_pipe :: t) = Some (c_pipe :: t) /\ opening_fence (c_pipe :: t) = None
  /\ is_rule (c_pipe :: t) = false /\ read_atx (c_pipe :: t) = None /\ starts_quote (c_pipe :: t) = false /\ marker_of (c_pipe :: t) = None
  /\ html_line (c_pipe :: t) = false /\ note_head (c_pipe :: t) = None /\ strange (c_pipe :: t) = false
  /\ read_definition ((c_pipe :: t) ++ [c_nl]) = None /\ underline (c_pipe :: t) = None /\ shallow (c_pipe :: t)
  /\ item_line (c_pipe :: t) = None /\ quote_sort_of (c_pipe :: t) = Plain_quote.
Proof.
  intro t. assert (Ud : underline (c_pipe :: t) = None).
  { unfold underline. destruct (drop_while_end is_blank_char (c_pipe :: t)) as [|c r] eqn:Q; [reflexivity|].
    assert (c = c_pipe). { destruct (drop_while_end_app is_blank_char (c_pipe :: t)) as (z & Z & _). rewrite Q in Z. injection Z as Z _. symmetry. exact Z. }
    subst c. reflexivity. }
  repeat split; try reflexivity; try exact Ud. cbn. lia.
Qed.
Lemma delimiter_row_ok : forall ws, aligns <> [] -> Forall (fun w => 3 <= w) ws -> List.length ws = List.length aligns ->
  delimiter_row (rule_row ws) = true.
Proof.
  intros ws N F L. unfold delimiter_row, rule_row. apply andb_true_iff. split.
  - apply forallb_forall. intros c [<-|I]; [reflexivity|]. clear N F L. revert ws I. induction aligns as [|a r IH]; intros ws I; [destruct I|].
    cbn [delimiter_cells_text] in I. rewrite !in_app_iff in I. destruct I as [[<-|[]]|[I|[I|I]]]; [reflexivity| | |eapply IH; exact I].
    + pose proof (delimiter_cell_chars (hd 3 ws) a) as D. rewrite Forall_forall in D. destruct (D c I) as [->| ->]; reflexivity.
    + destruct I as [<-|[<-|[]]]; reflexivity.
  - destruct aligns as [|a r]; [congruence|]. destruct ws as [|w ws]; [discriminate|]. apply Forall_inv in F.
    assert (G : In c_dash (c_pipe :: delimiter_cells_text (w :: ws) (a :: r))).
    { right. cbn [delimiter_cells_text hd tl]. apply in_or_app. right. apply in_or_app. left. destruct w as [|[|[|w]]]; try lia.
      destruct a; cbn [delimiter_cell Nat.sub repc repeat app]; [left; reflexivity|right; left; reflexivity|right; left; reflexivity|left; reflexivity]. }
    clear - G. revert G. generalize (c_pipe :: delimiter_cells_text (w :: ws) (a :: r)). intro l. induction l as [|c l IH]; intro G; [destruct G|].
    unfold contains_char in *. cbn [existsb]. destruct G as [<-|G]; [rewrite ceq_refl; reflexivity|]. rewrite (IH G). apply orb_true_r.
Qed.
Lemma row_span_rows : forall ws body rest, blank_next rest -> Forall (fun r => List.length r = List.length aligns) body ->
  Forall (Forall (fun x => trim_blank x = x)) body ->
  row_span (List.length aligns) (map (row_line ws) body ++ rest) = Some (map (map bare_pipes) body, rest).
Proof.
  intros ws body rest Bn L T. induction body as [|r body IH]; cbn [map app].
  - destruct rest as [|l rest]; [reflexivity|]. cbn [row_span]. cbn [blank_next] in Bn. rewrite Bn. reflexivity.
  - cbn [row_span]. unfold row_line at 1. destruct (pipe_line (row_cells_text U ws aligns (map escape_table_cell r))) as (-> & _).
    unfold row_line at 1. rewrite read_cells by exact (Forall_inv T). rewrite IH by (eapply Forall_inv_tail; eassumption).
    rewrite fit_cells by exact (Forall_inv L). reflexivity.
Qed.
Lemma table_block : forall rows, aligns <> [] -> rows <> [] -> Forall (fun r => List.length r = List.length aligns) rows ->
  Forall (Forall (fun x => trim_blank x = x)) rows -> block_lines (table_lines rows) (Table aligns (map (map bare_pipes) rows)).
Proof.
  intros rows Na Nr L T. destruct rows as [|h body]; [congruence|].
  assert (L' : Forall (fun r => List.length r = List.length aligns) (map (map escape_table_cell) (h :: body))).
  { apply Forall_map. eapply Forall_impl; [|exact L]. intros r E. rewrite map_length. exact E. }
  destruct (col_widths_ok U aligns (map (map escape_table_cell) (h :: body)) L') as (Lw & Gw & _). unfold table_lines.
  set (ws := col_widths U aligns (map (map escape_table_cell) (h :: body))) in *. cbv beta iota zeta. clearbody ws. clear L'.
  destruct (pipe_line (row_cells_text U ws aligns (map escape_table_cell h))) as (Bl & Mg & Fe & Ru & At & Sq & Mk & Hl & Nh & St & Rd & _ & Sh & It & _).
  destruct (pipe_line (delimiter_cells_text ws aligns)) as (Bl' & Mg' & _ & _ & _ & _ & _ & _ & _ & St' & _ & Ud' & _).
  change (c_pipe :: row_cells_text U ws aligns (map escape_table_cell h)) with (row_line ws h) in *.
  change (c_pipe :: delimiter_cells_text ws aligns) with (rule_row ws) in *.
  split.
  - eexists _, _. split; [reflexivity|]. split; [exact Sh|exact It].
  - intros rest bs Bn [n R]. cbn [follows] in Bn. apply reads_step. exists n. cbn [app read_step]. rewrite Bl, Mg, Fe, Ru, At, Sq, Mk, Hl, Nh, St, Rd. cbn [is_some].
    unfold read_paragraph. cbn [continuation]. rewrite (details_head_line (rule_row ws) _ Mg' eq_refl), Bl', Mg', Ud', St'.
    rewrite (delimiter_row_ok ws Na Gw Lw). cbn [is_some orb].
    unfold read_table. unfold row_line at 1. rewrite read_cells by exact (Forall_inv T). unfold rule_row. rewrite read_delimiter by assumption.
    rewrite map_length, (Forall_inv L), Nat.eqb_refl. rewrite row_span_rows; [|exact Bn|exact (Forall_inv_tail L)|exact (Forall_inv_tail T)].
    rewrite fit_cells by exact (Forall_inv L). rewrite R. reflexivity.
Qed.
Lemma table_lines_chars : forall rows, Forall (Forall (Forall line_char)) rows -> Forall (Forall line_char) (table_lines rows).
Proof.
  intros rows F. unfold table_lines. set (ws := col_widths _ _ _). clearbody ws. destruct rows as [|h body]; [constructor|].
  assert (R : forall r, Forall (Forall line_char) r -> Forall line_char (row_line ws r)).
  { intros r Fr. constructor; [split; discriminate|]. apply row_chars. apply Forall_map. eapply Forall_impl; [|exact Fr]. intros x Fx.
    apply (escape_cell_chars line_char (List.length x)); auto. split; discriminate. }
  constructor; [apply R; exact (Forall_inv F)|]. constructor; [constructor; [split; discriminate|apply delim_chars]|].
  apply Forall_map. eapply Forall_impl; [|exact (Forall_inv_tail F)]. exact R.
Qed.
Lemma table_lines_pipes : forall rows, Forall (fun l => exists t, l = c_pipe :: t) (table_lines rows).
Proof.
  intro rows. unfold table_lines. set (ws := col_widths _ _ _). clearbody ws. destruct rows as [|h body]; [constructor|].
  constructor; [eexists; reflexivity|]. constructor; [eexists; reflexivity|]. apply Forall_map. apply Forall_forall. intros r _. eexists. reflexivity.
Qed.
End Tables.

(** ** HTML *)
Lemma html_head : forall s, html_line s = true -> exists r, s = c_lt :: r.
Proof. intros [|c r] H; [discriminate|]. cbn [html_line] in H. destruct (ceq_spec c c_lt) as [->|N]; [eauto|discriminate]. Qed.
Lemma lt_line : forall l r, margin l = Some (c_lt :: r) -> exists a, l = spaces a ++ c_lt :: r /\ a <= 3 /\ is_blank l = false /\ opening_fence l = None
  /\ is_rule (c_lt :: r) = false /\ read_atx (c_lt :: r) = None /\ starts_quote (c_lt :: r) = false /\ marker_of (c_lt :: r) = None
  /\ shallow l /\ item_line l = None.
Proof.
  intros l r M. assert (K : exists a, l = spaces a ++ c_lt :: r /\ a <= 3).
  { unfold margin, fence_indent in M. destruct (run_len c_sp l <=? 3) eqn:Q; [|discriminate]. destruct (skipn (run_len c_sp l) l) as [|c t] eqn:E; [discriminate|].
    destruct (ceq c c_tab); [discriminate|]. injection M as -> ->. exists (run_len c_sp l). split; [|apply Nat.leb_le; exact Q].
    rewrite <- E. rewrite <- (firstn_skipn (run_len c_sp l) l) at 1. f_equal. clear. induction l as [|c l IH]; [reflexivity|]. cbn [run_len]. destruct (ceq_spec c c_sp) as [->|N]; [|reflexivity].
    cbn [firstn]. unfold spaces, repc in *. cbn [repeat]. f_equal. exact IH. }
  destruct K as (a & E & A). exists a. split; [exact E|]. split; [exact A|].
  assert (D : begins_dark (c_lt :: r)) by (exists c_lt, r; split; reflexivity).
  assert (Bl : is_blank l = false) by (rewrite E, is_blank_spaces; reflexivity).
  assert (Ns : forall r', c_lt :: r <> c_sp :: r') by (intros r' Q; discriminate Q).
  split; [exact Bl|]. split.
  { unfold opening_fence, fence_indent. rewrite E, run_spaces_dark by exact Ns. replace (a <=? 3) with true by (symmetry; apply Nat.leb_le; exact A). unfold spaces. rewrite skipn_repc. reflexivity. }
  repeat (split; [reflexivity|]). split.
  - split; [exact Bl|]. split; [rewrite E, run_spaces_dark by exact Ns; exact A|]. rewrite E, tabbed_spaces. reflexivity.
  - eapply item_line_none; [exact M|reflexivity].
Qed.
Lemma comment_span_app : forall a z rest, Forall (fun x => comment_ends x = false) a -> comment_ends z = true ->
  comment_span ((a ++ [z]) ++ rest) = Some (a ++ [z], rest).
Proof.
  intros a z rest F E. induction F as [|x a X F IH]; cbn [app comment_span]; [rewrite E; reflexivity|]. rewrite X, IH. reflexivity.
Qed.
Lemma tag_span_app : forall ls rest, Forall (fun x => is_blank x = false) ls -> blank_next rest -> tag_span (ls ++ rest) = (ls, rest).
Proof.
  intros ls rest F B. induction F as [|x a X F IH]; cbn [app tag_span].
  - destruct rest as [|l r]; [reflexivity|]. cbn [blank_next] in B. cbn [tag_span]. rewrite B. reflexivity.
  - rewrite X, IH. reflexivity.
Qed.
Lemma html_block : forall literal, html_block_text literal -> block_lines (cm_lines literal) (Html (cm_lines literal)).
Proof.
  intros literal (_ & l & r & s & E & M & H & K). rewrite E. destruct (html_head s H) as [t ->].
  destruct (lt_line l t M) as (a & El & La & Bl & Fe & Ru & At & Sq & Mk & Sh & It). split.
  - exists l, r. split; [reflexivity|]. split; [exact Sh|exact It].
  - intros rest bs Fo [n R]. cbn [follows] in Fo. unfold comment_block in Fo. cbn [hd] in Fo. rewrite M in Fo.
    apply reads_step. exists n. cbn [app read_step]. rewrite Bl, M, Fe, Ru, At, Sq, Mk. cbn [is_some]. rewrite H. unfold read_html.
    rewrite app_comm_cons. destruct (html_sort_of (c_lt :: t)); [| |destruct K].
    + destruct K as (x & z & Eq & Fx & Ez). rewrite Eq. rewrite comment_span_app by assumption. rewrite R. reflexivity.
    + destruct Fo as [Fo|Fo]; [discriminate|]. rewrite tag_span_app by assumption. rewrite R. reflexivity.
Qed.
Lemma contains_sub_nil : forall c p, contains_sub (c :: p) [] = false.
Proof. reflexivity. Qed.
Lemma html_lines_last : forall literal, html_block_text literal -> last (cm_lines literal) [] <> [].
Proof.
  intros literal (_ & l & r & s & E & M & H & K) Q. rewrite E in Q. destruct (html_sort_of s); [| |destruct K].
  - destruct K as (a & z & Eq & _ & Ez). rewrite Eq, last_last in Q. subst z. discriminate Ez.
  - destruct (@exists_last _ (l :: r) ltac:(discriminate)) as (a & z & Eq). rewrite Eq in *. rewrite last_last in Q. subst z.
    apply Forall_app in K. destruct K as [_ K]. apply Forall_inv in K. discriminate K.
Qed.
Lemma cm_lines_chars : forall s, Forall (Forall line_char) (cm_lines s).
Proof.
  assert (G : forall n s cur, List.length s <= n -> Forall line_char cur -> Forall (Forall line_char) (cm_lines_aux cur s)).
  { induction n as [|n IH]; intros s cur L F; destruct s as [|x s]; cbn [cm_lines_aux]; try (cbn [List.length] in L; lia).
    1,2: destruct cur; constructor; [apply Forall_rev; exact F|constructor].
    cbn [List.length] in L. destruct (ceq_spec x c_nl) as [->|N1]; [constructor; [apply Forall_rev; exact F|apply IH; [lia|constructor]]|].
    destruct (ceq_spec x c_cr) as [->|N2].
    - destruct s as [|y s]; [constructor; [apply Forall_rev; exact F|constructor]|]. cbn [List.length] in L.
      destruct (ceq y c_nl); (constructor; [apply Forall_rev; exact F|apply IH; [cbn [List.length]; lia|constructor]]).
    - apply IH; [lia|]. constructor; [split; assumption|exact F]. }
  intro s. unfold cm_lines. eapply G; [apply le_n|constructor].
Qed.
