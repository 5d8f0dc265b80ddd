(** Proofs about tables. *)
From Coq Require Import Bool Arith NArith Lia ZifyBool ZifyNat String List.
From Verif Require Import Base BaseFacts SpecInline EscapeModel EscapeProof CodeModel SpecCode CodeProof TableModel SpecTable.
Import ListNotations.

Section P.
Variable U : Uni.
Hypothesis W : table_width_laws U.

Lemma width_sp : forall a b, u_width U (a ++ c_sp :: b) = u_width U a + 1 + u_width U b.
Proof. apply W. Qed.
Lemma width_nil : u_width U [] = 0.
Proof. destruct W as [_ H]. rewrite H; auto. Qed.
Lemma width_spaces_r : forall n a, u_width U (a ++ spaces n) = u_width U a + n.
Proof.
  induction n as [|n IH]; intros a; cbn [spaces repc repeat].
  - rewrite app_nil_r. lia.
  - unfold spaces, repc in IH. rewrite width_sp. specialize (IH []). cbn in IH. rewrite IH, width_nil. lia.
Qed.
Lemma width_spaces_l : forall n a, u_width U (spaces n ++ a) = n + u_width U a.
Proof.
  induction n as [|n IH]; intros a; cbn [spaces repc repeat app]; auto.
  unfold spaces, repc in IH. change (c_sp :: repeat c_sp n ++ a) with ([] ++ c_sp :: (repeat c_sp n ++ a)).
  rewrite width_sp, IH, width_nil. lia.
Qed.

Lemma cell_width : forall c w a, u_width U c <= w -> u_width U (format_cell_aligned U c w a) = w.
Proof.
  intros c w a H. unfold format_cell_aligned. destruct a.
  - rewrite width_spaces_r. lia.
  - rewrite width_spaces_r. lia.
  - rewrite app_assoc, width_spaces_r, width_spaces_l.
    assert ((w - u_width U c) / 2 <= w - u_width U c) by (apply Nat.div_le_upper_bound; lia). lia.
  - rewrite width_spaces_l. lia.
Qed.

Lemma delimiter_width : forall w a, 3 <= w -> u_width U (delimiter_cell w a) = w.
Proof.
  intros w a H. destruct W as [_ G]. rewrite G.
  - unfold delimiter_cell. destruct a; rewrite ?app_length, ?repc_length; cbn [List.length]; lia.
  - assert (K : forall n, Forall (fun c => is_ascii_graphic c = true) (repc c_dash n)) by (intros; apply repc_forall; auto).
    destruct a; cbn [delimiter_cell]; repeat (apply Forall_app; split); auto; repeat constructor.
Qed.

Definition cells_width (ws : list nat) : nat := fold_right (fun w n => w + 3 + n) 0 ws.

Lemma width_pipe_tail : forall a t, u_width U (a ++ lit " |" ++ t) = u_width U a + 1 + u_width U (c_pipe :: t).
Proof. intros. change (lit " |" ++ t) with (c_sp :: c_pipe :: t). apply width_sp. Qed.

Definition row_widths_ok (ws : list nat) (cells : list str) : Prop := Forall2 (fun w c => u_width U c <= w) ws cells.

Lemma pipe_row_width : forall ws aligns cells, row_widths_ok ws cells ->
  u_width U (c_pipe :: row_cells_text U ws aligns cells) = S (cells_width ws).
Proof.
  intros ws aligns cells H. revert aligns. induction H as [|w c ws cells Hc H IH]; intros aligns; cbn [row_cells_text cells_width fold_right].
  - destruct W as [_ G]. rewrite G; [reflexivity|repeat constructor].
  - cbn [hd tl]. change (c_pipe :: [c_sp] ++ format_cell_aligned U c w (hd ANone aligns) ++ lit " |" ++ row_cells_text U ws (tl aligns) cells)
      with ([c_pipe] ++ c_sp :: (format_cell_aligned U c w (hd ANone aligns) ++ lit " |" ++ row_cells_text U ws (tl aligns) cells)).
    rewrite width_sp, width_pipe_tail, IH, cell_width by auto. destruct W as [_ G]. rewrite G by (repeat constructor).
    cbn [List.length]. unfold cells_width. lia.
Qed.
Lemma pipe_delim_width : forall ws aligns, Forall (fun w => 3 <= w) ws -> List.length ws = List.length aligns ->
  u_width U (c_pipe :: delimiter_cells_text ws aligns) = S (cells_width ws).
Proof.
  induction ws as [|w ws IH]; intros aligns H L; destruct aligns as [|a aligns]; try discriminate; cbn [delimiter_cells_text cells_width fold_right].
  - destruct W as [_ G]. rewrite G; [reflexivity|repeat constructor].
  - inversion H; subst. cbn [hd tl].
    change (c_pipe :: [c_sp] ++ delimiter_cell w a ++ lit " |" ++ delimiter_cells_text ws aligns)
      with ([c_pipe] ++ c_sp :: (delimiter_cell w a ++ lit " |" ++ delimiter_cells_text ws aligns)).
    rewrite width_sp, width_pipe_tail, IH, delimiter_width by auto. destruct W as [_ G]. rewrite G by (repeat constructor).
    cbn [List.length]. unfold cells_width. lia.
Qed.
End P.

(** ** Column widths *)
Lemma widen_length : forall U ws cells, List.length (widen U ws cells) = List.length ws.
Proof. induction ws as [|w ws IH]; intros [|c cells]; cbn; auto. Qed.
Lemma fold_widen_length : forall U rows ws, List.length (fold_left (widen U) rows ws) = List.length ws.
Proof. induction rows as [|r rows IH]; intros ws; cbn; auto. rewrite IH. apply widen_length. Qed.
Lemma widen_ge : forall U ws cells, Forall2 le ws (widen U ws cells).
Proof.
  induction ws as [|w ws IH]; intros [|c cells]; cbn; auto.
  - constructor; auto. clear. induction ws; constructor; auto.
  - constructor; auto. lia.
Qed.
Lemma Forall2_le_trans : forall a b c, Forall2 le a b -> Forall2 le b c -> Forall2 le a c.
Proof. intros a b c H. revert c. induction H; intros c K; inversion K; subst; constructor; auto. lia. Qed.
Lemma Forall2_le_refl : forall a, Forall2 le a a.
Proof. induction a; constructor; auto. Qed.
Lemma fold_widen_ge : forall U rows ws, Forall2 le ws (fold_left (widen U) rows ws).
Proof.
  induction rows as [|r rows IH]; intros ws; cbn; [apply Forall2_le_refl|].
  eapply Forall2_le_trans; [apply widen_ge|apply IH].
Qed.
Lemma widen_covers : forall U ws cells, List.length cells = List.length ws ->
  Forall2 (fun w c => u_width U c <= w) (widen U ws cells) cells.
Proof. induction ws as [|w ws IH]; intros [|c cells] H; try discriminate; cbn; constructor; auto. lia. Qed.
Lemma fold_widen_covers : forall U rows ws cells, Forall (fun r => List.length r = List.length ws) rows ->
  In cells rows -> Forall2 (fun w c => u_width U c <= w) (fold_left (widen U) rows ws) cells.
Proof.
  induction rows as [|r rows IH]; intros ws cells H []; inversion H; subst; cbn.
  - pose proof (widen_covers U ws cells H3) as K.
    pose proof (fold_widen_ge U rows (widen U ws cells)) as G. revert K.
    generalize dependent (fold_left (widen U) rows (widen U ws cells)). generalize (widen U ws cells). clear.
    intros a b G. revert cells. induction G; intros cells K; inversion K; subst; constructor; auto. lia.
  - apply IH; auto. rewrite widen_length. auto.
Qed.
Lemma col_widths_ok : forall U aligns rows, Forall (fun r => List.length r = List.length aligns) rows ->
  List.length (col_widths U aligns rows) = List.length aligns
  /\ Forall (fun w => 3 <= w) (col_widths U aligns rows)
  /\ Forall (row_widths_ok U (col_widths U aligns rows)) rows.
Proof.
  intros U aligns rows H. unfold col_widths. split; [|split].
  - rewrite map_length, fold_widen_length, repeat_length. reflexivity.
  - apply Forall_forall. intros w Hw. apply in_map_iff in Hw. destruct Hw as (x & <- & _). lia.
  - apply Forall_forall. intros r Hr. unfold row_widths_ok.
    assert (K : Forall2 (fun w c => u_width U c <= w) (fold_left (widen U) rows (repeat 0 (List.length aligns))) r).
    { apply fold_widen_covers; auto. rewrite repeat_length. auto. }
    revert K. generalize (fold_left (widen U) rows (repeat 0 (List.length aligns))). clear. intros l K.
    induction K; cbn; constructor; auto. lia.
Qed.

(** ** Pipes *)

(** Ends without an escape pending: what the reader sees next is not escaped. *)
Lemma prev_app : forall s b t, pipes_prev b (s ++ t) = pipes_prev b s + pipes_prev (match s with [] => b | _ => ceq (last s 0%N) c_bs end) t.
Proof.
  induction s as [|c s IH]; intros b t; auto. cbn [app pipes_prev]. rewrite IH. destruct s; cbn; lia.
Qed.
Lemma prev_snoc : forall s b d t, ceq d c_bs = false -> ceq d c_pipe = false ->
  pipes_prev b (s ++ d :: t) = pipes_prev b s + pipes_prev false t.
Proof.
  intros s b d t Hb Hp. rewrite prev_app. cbn [pipes_prev]. rewrite Hp, Hb. reflexivity.
Qed.
Lemma prev_no_pipe : forall s b, Forall (fun c => ceq c c_pipe = false) s -> pipes_prev b s = 0.
Proof. intros s b H. revert b. induction H; intros b; cbn; auto. rewrite H. cbn. auto. Qed.
Lemma parity_app0 : forall n s b t, List.length s <= n -> pipes_parity b s = 0 -> exists b', pipes_parity b (s ++ c_sp :: t) = pipes_parity b' t /\ b' = false.
Proof.
  induction n as [|n IH]; intros s b t L H.
  - destruct s; [|cbn in L; lia]. cbn. exists false. split; auto. destruct b; reflexivity.
  - destruct s as [|c s]; [apply IH; cbn; auto; lia|]. cbn in H. cbn [app pipes_parity]. destruct b.
    + apply IH; auto. cbn in L. lia.
    + destruct (ceq c c_bs); [apply IH; auto; cbn in L; lia|].
      destruct (ceq c c_pipe); [discriminate|]. cbn [Nat.add] in *. apply IH; auto. cbn in L; lia.
Qed.
Lemma parity_sp : forall s b t, pipes_parity b s = 0 -> pipes_parity b (s ++ c_sp :: t) = pipes_parity false t.
Proof. intros. destruct (parity_app0 (List.length s) s b t) as (b' & E & ->); auto. Qed.

Lemma cell_no_pipe_fmt : forall U c w a,
  (forall b, pipes_prev b (format_cell_aligned U (escape_table_cell c) w a) = 0)
  /\ pipes_parity false (format_cell_aligned U (escape_table_cell c) w a) = 0.
Proof.
  intros U c w a.
  assert (Hp : forall b, pipes_prev b (escape_table_cell c) = 0) by (intros; apply cell_no_pipe_prev).
  assert (Hq : pipes_parity false (escape_table_cell c) = 0) by apply cell_no_pipe_parity.
  set (e := escape_table_cell c) in *. clearbody e.
  assert (Hr : forall n b s, pipes_prev b s = 0 -> pipes_prev b (s ++ spaces n) = 0).
  { intros n b s H. rewrite prev_app, H. cbn. apply prev_no_pipe. apply repc_forall. reflexivity. }
  assert (Hl : forall n b s, (forall b, pipes_prev b s = 0) -> pipes_prev b (spaces n ++ s) = 0).
  { induction n; intros b s H; cbn; auto. }
  assert (Hr2 : forall n s, pipes_parity false s = 0 -> pipes_parity false (s ++ spaces n) = 0).
  { intros n s H. destruct n; cbn; [rewrite app_nil_r; auto|]. rewrite parity_sp by auto.
    clear. induction n; cbn; auto. }
  assert (Hl2 : forall n s, pipes_parity false s = 0 -> pipes_parity false (spaces n ++ s) = 0).
  { induction n; intros s H; cbn; auto. }
  split; [intros b|]; unfold format_cell_aligned; destruct a; auto.
Qed.

Lemma row_pipes : forall U ws aligns cells b,
  pipes_prev b (row_cells_text U ws aligns (map escape_table_cell cells)) = List.length cells
  /\ pipes_parity false (row_cells_text U ws aligns (map escape_table_cell cells)) = List.length cells.
Proof.
  intros U ws aligns cells. revert ws aligns. induction cells as [|c cells IH]; intros ws aligns b; cbn [map row_cells_text]; auto.
  destruct (cell_no_pipe_fmt U c (hd 3 ws) (hd ANone aligns)) as [Hp Hq].
  set (f := format_cell_aligned U (escape_table_cell c) (hd 3 ws) (hd ANone aligns)) in *. clearbody f.
  destruct (IH (tl ws) (tl aligns) false) as [I1 I2]. cbn [app]. split.
  - change (c_sp :: f ++ lit " |" ++ row_cells_text U (tl ws) (tl aligns) (map escape_table_cell cells))
      with ([] ++ c_sp :: (f ++ c_sp :: c_pipe :: row_cells_text U (tl ws) (tl aligns) (map escape_table_cell cells))).
    rewrite prev_snoc by reflexivity. cbn [pipes_prev Nat.add]. rewrite prev_snoc by reflexivity. rewrite Hp.
    cbn [pipes_prev]. change (ceq c_pipe c_pipe && negb false) with true. change (ceq c_pipe c_bs) with false.
    rewrite I1. reflexivity.
  - change (lit " |" ++ row_cells_text U (tl ws) (tl aligns) (map escape_table_cell cells))
      with (c_sp :: c_pipe :: row_cells_text U (tl ws) (tl aligns) (map escape_table_cell cells)).
    cbn [pipes_parity]. change (ceq c_sp c_bs) with false. change (ceq c_sp c_pipe) with false. cbn iota. cbn [Nat.add].
    rewrite parity_sp by auto. cbn [pipes_parity]. change (ceq c_pipe c_bs) with false. change (ceq c_pipe c_pipe) with true.
    cbn iota. rewrite I2. reflexivity.
Qed.

(** ** Reading rows back *)
Lemma split_pipes_app : forall f cur b t, pipes_prev b f = 0 ->
  split_pipes b cur (f ++ c_sp :: c_pipe :: t) = (rev cur ++ f ++ [c_sp]) :: split_pipes false [] t.
Proof.
  induction f as [|c f IH]; intros cur b t H.
  - cbn [app split_pipes]. change (ceq c_sp c_pipe && negb b) with false. cbn iota. change (ceq c_sp c_bs) with false.
    change (ceq c_pipe c_pipe && negb false) with true. cbn iota. cbn [rev]. reflexivity.
  - cbn [pipes_prev] in H. cbn [app split_pipes]. destruct (ceq c c_pipe && negb b); [cbn in H; lia|].
    rewrite IH by (cbn in H; auto). cbn [rev]. rewrite <- !app_assoc. reflexivity.
Qed.

Lemma drop_while_spaces : forall n s, drop_while is_blank_char (spaces n ++ s) = drop_while is_blank_char s.
Proof. intros. apply drop_while_app_all. apply repc_forall. reflexivity. Qed.
Lemma drop_while_end_spaces : forall n s, drop_while_end is_blank_char (s ++ spaces n) = drop_while_end is_blank_char s.
Proof.
  intros. unfold drop_while_end. rewrite rev_app_distr. unfold spaces. rewrite rev_repc.
  rewrite (drop_while_spaces n). reflexivity.
Qed.
Lemma drop_while_app_blank_r : forall s n, drop_while is_blank_char (s ++ spaces n) =
  match drop_while is_blank_char s with [] => [] | _ => drop_while is_blank_char s ++ spaces n end.
Proof.
  induction s as [|c s IH]; intros n; cbn [app drop_while].
  - rewrite <- (app_nil_r (spaces n)), drop_while_spaces. reflexivity.
  - destruct (is_blank_char c); auto.
Qed.
Lemma trim_blank_pad : forall a s b, trim_blank (spaces a ++ s ++ spaces b) = trim_blank s.
Proof.
  intros. unfold trim_blank. rewrite drop_while_spaces, drop_while_app_blank_r.
  destruct (drop_while is_blank_char s); [reflexivity|]. apply drop_while_end_spaces.
Qed.
Lemma trim_blank_cell : forall U c w a, trim_blank ([c_sp] ++ format_cell_aligned U c w a ++ [c_sp]) = trim_blank c.
Proof.
  intros U c w a. unfold format_cell_aligned. set (p := w - u_width U c).
  destruct a; match goal with |- trim_blank ?x = _ => idtac end.
  - replace ([c_sp] ++ (c ++ spaces p) ++ [c_sp]) with (spaces 1 ++ c ++ spaces (p + 1)); [apply trim_blank_pad|].
    unfold spaces. rewrite repc_app, <- !app_assoc. reflexivity.
  - replace ([c_sp] ++ (c ++ spaces p) ++ [c_sp]) with (spaces 1 ++ c ++ spaces (p + 1)); [apply trim_blank_pad|].
    unfold spaces. rewrite repc_app, <- !app_assoc. reflexivity.
  - replace ([c_sp] ++ (spaces (p / 2) ++ c ++ spaces (p - p / 2)) ++ [c_sp])
      with (spaces (1 + p / 2) ++ c ++ spaces ((p - p / 2) + 1)); [apply trim_blank_pad|].
    unfold spaces. rewrite !repc_app, <- !app_assoc. reflexivity.
  - replace ([c_sp] ++ (spaces p ++ c) ++ [c_sp]) with (spaces (1 + p) ++ c ++ spaces 1); [apply trim_blank_pad|].
    unfold spaces. rewrite repc_app, <- !app_assoc. reflexivity.
Qed.

(** The pieces between pipes of a row of blocks " x |". *)
Lemma split_blocks : forall (fs : list str), Forall (fun f => forall b, pipes_prev b f = 0) fs ->
  split_pipes false [] (flat_map (fun f => [c_sp] ++ f ++ lit " |") fs) = map (fun f => [c_sp] ++ f ++ [c_sp]) fs ++ [[]].
Proof.
  induction 1 as [|f fs H _ IH]; auto. cbn [flat_map map].
  change (([c_sp] ++ f ++ lit " |") ++ flat_map (fun f => [c_sp] ++ f ++ lit " |") fs)
    with (c_sp :: (f ++ lit " |") ++ flat_map (fun f => [c_sp] ++ f ++ lit " |") fs).
  rewrite <- app_assoc. change (lit " |" ++ flat_map (fun f0 => [c_sp] ++ f0 ++ lit " |") fs)
    with (c_sp :: c_pipe :: flat_map (fun f0 => [c_sp] ++ f0 ++ lit " |") fs).
  cbn [split_pipes]. change (ceq c_sp c_pipe && negb false) with false. cbn iota. change (ceq c_sp c_bs) with false.
  rewrite split_pipes_app by auto. rewrite IH. reflexivity.
Qed.
Lemma read_row_blocks : forall fs, Forall (fun f => forall b, pipes_prev b f = 0) fs ->
  read_row (c_pipe :: flat_map (fun f => [c_sp] ++ f ++ lit " |") fs) = Some (map (fun f => trim_blank ([c_sp] ++ f ++ [c_sp])) fs).
Proof.
  intros fs H. unfold read_row. cbn [split_pipes]. change (ceq c_pipe c_pipe && negb false) with true. cbn iota.
  rewrite split_blocks by auto. cbn [rev]. rewrite rev_app_distr. cbn [rev app].
  rewrite rev_involutive, map_map. reflexivity.
Qed.

Fixpoint fmt_cells (U : Uni) (ws : list nat) (aligns : list alignment) (cells : list str) : list str :=
  match cells with
  | [] => []
  | c :: cs => format_cell_aligned U c (hd 3 ws) (hd ANone aligns) :: fmt_cells U (tl ws) (tl aligns) cs
  end.
Lemma row_cells_blocks : forall U cells ws aligns,
  row_cells_text U ws aligns cells = flat_map (fun f => [c_sp] ++ f ++ lit " |") (fmt_cells U ws aligns cells).
Proof.
  induction cells as [|c cells IH]; intros ws aligns; auto. cbn [row_cells_text fmt_cells flat_map].
  rewrite IH, <- !app_assoc. reflexivity.
Qed.
Lemma read_row_row : forall U ws aligns cells,
  read_row (c_pipe :: row_cells_text U ws aligns (map escape_table_cell cells))
  = Some (map (fun c => trim_blank (escape_table_cell c)) cells).
Proof.
  intros U ws aligns cells. rewrite row_cells_blocks, read_row_blocks.
  - f_equal. revert ws aligns. induction cells as [|c cells IH]; intros ws aligns; auto.
    cbn [map fmt_cells]. rewrite trim_blank_cell, IH. reflexivity.
  - revert ws aligns. induction cells as [|c cells IH]; intros ws aligns; cbn [map fmt_cells]; constructor; auto.
    apply cell_no_pipe_fmt.
Qed.

Fixpoint delim_cells (ws : list nat) (aligns : list alignment) : list str :=
  match aligns with [] => [] | a :: r => delimiter_cell (hd 3 ws) a :: delim_cells (tl ws) r end.
Lemma delim_cells_blocks : forall aligns ws,
  delimiter_cells_text ws aligns = flat_map (fun f => [c_sp] ++ f ++ lit " |") (delim_cells ws aligns).
Proof.
  induction aligns as [|a r IH]; intros ws; auto. cbn [delimiter_cells_text delim_cells flat_map].
  rewrite IH, <- !app_assoc. reflexivity.
Qed.
Lemma delimiter_cell_chars : forall w a, Forall (fun c => c = c_dash \/ c = c_colon) (delimiter_cell w a).
Proof.
  intros. assert (K : forall n, Forall (fun c => c = c_dash \/ c = c_colon) (repc c_dash n)) by (intros; apply repc_forall; auto).
  destruct a; cbn [delimiter_cell]; repeat (apply Forall_app; split); auto.
Qed.
Lemma trim_blank_solid : forall s, Forall (fun c => is_blank_char c = false) s -> trim_blank ([c_sp] ++ s ++ [c_sp]) = s.
Proof.
  intros s H. change [c_sp] with (spaces 1). rewrite trim_blank_pad. unfold trim_blank, drop_while_end.
  rewrite (drop_while_none is_blank_char s) by auto. rewrite drop_while_none; [apply rev_involutive|].
  apply Forall_rev. auto.
Qed.
Lemma read_alignment_cell : forall w a, 3 <= w -> read_alignment (delimiter_cell w a) = Some a.
Proof.
  intros w a H. destruct w as [|[|[|w]]]; try lia. unfold read_alignment. cbv zeta.
  assert (R0 : forall n, run_len c_dash (repc c_dash n) = n).
  { intros. rewrite <- (app_nil_r (repc c_dash n)), run_len_repc. cbn. lia. }
  assert (K0 : forall n, skipn n (repc c_dash n) = []).
  { intros. rewrite <- (app_nil_r (repc c_dash n)). apply skipn_repc. }
  destruct a; cbn [delimiter_cell].
  - change (ceq c_dash c_colon) with false. cbn [repc repeat]. cbn iota.
    change (ceq c_dash c_colon) with false. cbn iota.
    change (c_dash :: c_dash :: c_dash :: repeat c_dash w) with (repc c_dash (S (S (S w)))).
    rewrite R0, K0. reflexivity.
  - replace (S (S (S w)) - 1) with (S (S w)) by lia. cbn [app]. change (ceq c_colon c_colon) with true.
    cbv zeta. cbn [tl]. rewrite R0, K0. reflexivity.
  - replace (S (S (S w)) - 2) with (S w) by lia. cbv zeta. cbn [app]. change (ceq c_colon c_colon) with true. cbn [tl]. rewrite run_len_repc. cbn [run_len].
    change (ceq c_colon c_dash) with false. cbn iota. rewrite Nat.add_0_r, skipn_repc. reflexivity.
  - replace (S (S (S w)) - 1) with (S (S w)) by lia. cbn [repc repeat app]. change (ceq c_dash c_colon) with false. cbn iota.
    change (c_dash :: c_dash :: repeat c_dash w ++ [c_colon]) with (repc c_dash (S (S w)) ++ [c_colon]).
    rewrite run_len_repc. cbn [run_len]. change (ceq c_colon c_dash) with false. cbn iota.
    rewrite Nat.add_0_r, skipn_repc. reflexivity.
Qed.
Lemma delimiter_no_pipe : forall w a b, pipes_prev b (delimiter_cell w a) = 0.
Proof.
  intros. apply prev_no_pipe. eapply Forall_impl; [|apply delimiter_cell_chars]. cbn beta. intros c [-> | ->]; reflexivity.
Qed.
Lemma read_delimiter : forall ws aligns, Forall (fun w => 3 <= w) ws -> List.length ws = List.length aligns ->
  read_delimiter_row (c_pipe :: delimiter_cells_text ws aligns) = Some aligns.
Proof.
  intros ws aligns H L. unfold read_delimiter_row. rewrite delim_cells_blocks, read_row_blocks.
  - rewrite map_map. revert ws H L. induction aligns as [|a aligns IH]; intros ws H L; auto.
    destruct ws as [|w ws]; [discriminate|]. inversion H; subst. cbn [delim_cells map hd tl all_some].
    rewrite trim_blank_solid, read_alignment_cell, IH; auto.
    eapply Forall_impl; [|apply delimiter_cell_chars]. cbn beta. intros c [-> | ->]; reflexivity.
  - clear. revert ws. induction aligns as [|a aligns IH]; intros ws; cbn [delim_cells]; constructor; auto.
    intros. apply delimiter_no_pipe.
Qed.
Lemma delimiter_pipes : forall aligns ws b,
  pipes_prev b (delimiter_cells_text ws aligns) = List.length aligns
  /\ pipes_parity false (delimiter_cells_text ws aligns) = List.length aligns.
Proof.
  induction aligns as [|a aligns IH]; intros ws b; cbn [delimiter_cells_text]; auto.
  destruct (IH (tl ws) false) as [I1 I2]. pose proof (delimiter_no_pipe (hd 3 ws) a) as Hp.
  assert (Hq : pipes_parity false (delimiter_cell (hd 3 ws) a) = 0).
  { pose proof (delimiter_cell_chars (hd 3 ws) a) as K. revert K. generalize (delimiter_cell (hd 3 ws) a). clear.
    intros l K. induction K as [|c s [-> | ->] K IHK]; auto. }
  set (f := delimiter_cell (hd 3 ws) a) in *. clearbody f. cbn [app]. split.
  - change (c_sp :: f ++ lit " |" ++ delimiter_cells_text (tl ws) aligns)
      with ([] ++ c_sp :: (f ++ c_sp :: c_pipe :: delimiter_cells_text (tl ws) aligns)).
    rewrite prev_snoc by reflexivity. cbn [pipes_prev Nat.add]. rewrite prev_snoc by reflexivity. rewrite Hp.
    cbn [pipes_prev]. change (ceq c_pipe c_pipe && negb false) with true. change (ceq c_pipe c_bs) with false.
    rewrite I1. reflexivity.
  - change (lit " |" ++ delimiter_cells_text (tl ws) aligns) with (c_sp :: c_pipe :: delimiter_cells_text (tl ws) aligns).
    cbn [pipes_parity]. change (ceq c_sp c_bs) with false. change (ceq c_sp c_pipe) with false. cbn iota. cbn [Nat.add].
    rewrite parity_sp by auto. cbn [pipes_parity]. change (ceq c_pipe c_bs) with false. change (ceq c_pipe c_pipe) with true.
    cbn iota. rewrite I2. reflexivity.
Qed.

(** ** Characters of the lines *)
Lemma escape_cell_chars : forall (P : char -> Prop) n c, List.length c <= n -> P c_bs -> Forall P c -> Forall P (escape_table_cell c).
Proof.
  induction n as [|n IH]; intros c L Hb H; destruct c as [|x c]; cbn [escape_table_cell]; auto; [cbn in L; lia|].
  inversion H; subst. destruct (ceq x c_bs).
  - destruct c as [|d c]; auto. inversion H3; subst. constructor; auto. constructor; auto. apply IH; auto. cbn in L; lia.
  - destruct (ceq_spec x c_pipe) as [->|]; constructor; auto; [constructor; auto|]; apply IH; auto; cbn in L; lia.
Qed.
Lemma spaces_chars : forall n, Forall line_char (spaces n).
Proof. intros. apply repc_forall. split; discriminate. Qed.
Lemma format_cell_chars : forall U c w a, Forall line_char c -> Forall line_char (format_cell_aligned U c w a).
Proof. intros. unfold format_cell_aligned. destruct a; repeat (apply Forall_app; split); auto using spaces_chars. Qed.
Lemma pipe_chars : Forall line_char (lit " |").
Proof. repeat constructor; discriminate. Qed.
Lemma row_chars : forall U cells ws aligns, Forall (Forall line_char) cells -> Forall line_char (row_cells_text U ws aligns cells).
Proof.
  induction cells as [|c cells IH]; intros ws aligns H; cbn [row_cells_text]; auto. inversion H; subst.
  repeat (apply Forall_app; split); auto using format_cell_chars, pipe_chars. exact (spaces_chars 1).
Qed.
Lemma delim_chars : forall aligns ws, Forall line_char (delimiter_cells_text ws aligns).
Proof.
  induction aligns as [|a aligns IH]; intros ws; cbn [delimiter_cells_text]; auto.
  repeat (apply Forall_app; split); auto using pipe_chars; [exact (spaces_chars 1)|].
  eapply Forall_impl; [|apply delimiter_cell_chars]. cbn beta. intros c [-> | ->]; split; discriminate.
Qed.
