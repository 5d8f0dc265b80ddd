(** Blocks that are indented by up to three columns, as the reader of
    [SpecBlocks] sees them. *)
From Coq Require Import Bool Arith NArith Lia ZifyBool ZifyNat ZifyN String List.
From Verif Require Import Base BaseFacts WrapModel SpecWrap WrapProof OptsModel CodeModel HeadingModel SpecCode SpecHeading SpecRefs SpecBlocks
  SpecEnd SpecStructure CodeProof BlocksProof ParaProof NestProof LeafProof.
From Verif Require NoteProof.
Import ListNotations.

Lemma ind_cons : forall n l, l <> [] -> ind n l = spaces n ++ l.
Proof. intros n [|c l] H; [congruence|reflexivity]. Qed.
(** ** Lines with indentation *)
Lemma margin_deep : forall a l, 4 <= a -> begins_dark l -> margin (spaces a ++ l) = None.
Proof.
  intros a l A (c & t & -> & D). assert (H : forall r, c :: t <> c_sp :: r) by (intros r E; injection E as -> _; discriminate).
  unfold margin, fence_indent. rewrite run_spaces_dark by exact H. replace (a <=? 3) with false by lia. reflexivity.
Qed.
Lemma continuation_indented : forall k more rest, Forall plain_line more -> stops rest ->
  continuation (map (app (spaces k)) more ++ rest) = Some (map (app (spaces k)) more, None, rest).
Proof.
  intros k more rest F S. induction F as [|l more P F IH]; [apply (continuation_plain [] rest); [constructor|exact S]|].
  pose proof P as (D & O & N). cbn [map app continuation]. rewrite is_blank_spaces. destruct (dark_margin l D) as (_ & -> & _).
  rewrite IH. destruct (le_lt_dec k 3) as [L|L]; [|rewrite margin_deep by (exact D || lia); reflexivity].
  rewrite margin_spaces by (exact D || lia). rewrite (plain_underline l O).
  destruct (plain_strange l O) as [S1 S2]. rewrite (details_head_line _ l (margin_spaces k l L D) S2).
  unfold strange. rewrite S1, S2, N, (plain_row l O), (plain_interrupts l D O). reflexivity.
Qed.
Lemma split_blank_start : forall t l, Forall (fun c => is_ws c = true) t -> split_whitespace (t ++ l) = split_whitespace l.
Proof. intros t l F. induction F as [|c t W F IH]; [reflexivity|]. rewrite <- IH. unfold split_whitespace. cbn [app split_ws_aux]. rewrite W. reflexivity. Qed.
Lemma defines_spaces : forall k l, defines (spaces k ++ l) = defines l.
Proof.
  intros k l. induction k as [|k IH]; [reflexivity|]. rewrite <- IH. unfold defines. change (spaces (S k) ++ l) with (c_sp :: spaces k ++ l).
  generalize (spaces k ++ l). intro t. destruct (contains_sub [c_rbr; c_colon] t) eqn:E.
  - apply contains_true in E. destruct E as (a & b & ->). apply contains_true. exists (c_sp :: a), b. reflexivity.
  - destruct (contains_sub [c_rbr; c_colon] (c_sp :: t)) eqn:E'; [|reflexivity]. apply contains_true in E'. destruct E' as (a & b & Q).
    destruct a as [|x a]; [discriminate Q|]. injection Q as _ Q. assert (K : contains_sub [c_rbr; c_colon] t = true) by (apply contains_true; exists a, b; exact Q). congruence.
Qed.
Lemma opening_spaces : forall k l, k <= 3 -> begins_dark l -> opening_fence l = None -> opening_fence (spaces k ++ l) = None.
Proof.
  intros k l K D N. unfold opening_fence in *. destruct D as (c & t & -> & D).
  assert (H : forall r, c :: t <> c_sp :: r) by (intros r E; injection E as -> _; discriminate). unfold fence_indent in *. rewrite run_spaces_dark by exact H.
  replace (k <=? 3) with true by lia. unfold spaces. rewrite skipn_repc. rewrite run_len_no in N by exact H. cbn [Nat.leb skipn] in N.
  destruct (ceq c c_bt || ceq c c_tilde); [|reflexivity]. cbv zeta in *. destruct (_ && _); [discriminate|reflexivity].
Qed.
Lemma spaces_dark_breaks : forall k l, begins_dark l -> breaks (spaces k ++ l) = breaks l /\ odd_backslashes (spaces k ++ l) = odd_backslashes l.
Proof.
  intros k l (c & r & -> & D).
  assert (O : odd_backslashes (spaces k ++ c :: r) = odd_backslashes (c :: r)).
  { unfold odd_backslashes. rewrite rev_app_distr.
    assert (R : forall s t, (forall x, t <> c_bs :: x) -> run_len c_bs (s ++ t) = run_len c_bs s).
    { intros s t H. induction s as [|x s IH]; [apply run_len_no; exact H|]. cbn [app run_len]. rewrite IH. reflexivity. }
    rewrite R; [reflexivity|]. intros x Q. assert (I : In c_bs (spaces k)) by (apply in_rev; rewrite Q; left; reflexivity).
    unfold spaces, repc in I. apply repeat_spec in I. discriminate I. }
  split; [|exact O]. unfold breaks. rewrite O. f_equal.
  assert (G : forall y, ends_with [c_sp; c_sp] (y ++ c :: r) = ends_with [c_sp; c_sp] (c :: r)).
  { intro y. destruct (ends_with [c_sp; c_sp] (c :: r)) eqn:E.
    - apply ends_with_true in E. destruct E as [z E]. apply ends_with_true. exists (y ++ z). rewrite E, app_assoc. reflexivity.
    - apply not_true_iff_false. intro K. apply ends_with_true in K. destruct K as [z K]. apply not_true_iff_false in E. apply E. apply ends_with_true.
      destruct (exists_last (l := c :: r) ltac:(discriminate)) as (a & e & Q). rewrite Q in *. change [c_sp; c_sp] with ([c_sp] ++ [c_sp]) in K.
      rewrite !app_assoc in K. apply app_inj_tail in K. destruct K as [K Ke]. subst e.
      destruct a as [|a0 a]. { injection Q as Q _. subst c. discriminate D. }
      destruct (exists_last (l := a0 :: a) ltac:(discriminate)) as (b & f & Q2). rewrite Q2 in *. rewrite app_assoc in K. apply app_inj_tail in K. destruct K as [_ <-].
      exists b. rewrite <- app_assoc. reflexivity. }
  apply G.
Qed.
(** Indentation of its lines does not change what a paragraph says. *)
Definition shifted (l l' : str) : Prop := exists k, l' = spaces k ++ l.
Lemma shifted_pieces : forall ls ls', Forall2 shifted ls ls' -> Forall begins_dark ls -> line_pieces ls' = line_pieces ls.
Proof.
  assert (W : forall k l, split_whitespace (spaces k ++ l) = split_whitespace l) by (intros k l; apply split_blank_start, NoteProof.spaces_ws).
  intros ls ls' F. induction F as [|l l' ls ls' (k & ->) F IH]; intro D; [reflexivity|]. inversion D as [|? ? D1 D2]; subst. specialize (IH D2).
  destruct (spaces_dark_breaks k l D1) as [Bk Ob].
  destruct F as [|m m' ls ls' H F]; [cbn [line_pieces]; rewrite W; reflexivity|].
  change (line_pieces ((spaces k ++ l) :: m' :: ls')) with
    (if breaks (spaces k ++ l) then split_whitespace (line_text (spaces k ++ l)) :: line_pieces (m' :: ls')
     else match line_pieces (m' :: ls') with p :: ps => (split_whitespace (spaces k ++ l) ++ p) :: ps | [] => [] end).
  change (line_pieces (l :: m :: ls)) with
    (if breaks l then split_whitespace (line_text l) :: line_pieces (m :: ls)
     else match line_pieces (m :: ls) with p :: ps => (split_whitespace l ++ p) :: ps | [] => [] end).
  rewrite IH, Bk, W. destruct (breaks l); [|reflexivity]. f_equal. unfold line_text. rewrite Ob. destruct (odd_backslashes l); [|apply W].
  destruct D1 as (c & r & -> & D1). rewrite removelast_app by discriminate. apply W.
Qed.
Lemma shifted_same : forall k ls, Forall2 shifted ls (map (app (spaces k)) ls).
Proof. intros k ls. induction ls as [|l ls IH]; [constructor|]. cbn [map]. constructor; [exists k; reflexivity|exact IH]. Qed.
Lemma reads_shifted : forall j k x l more rest bs, j <= 3 -> para_lines x (l :: more) -> stops rest -> reads rest bs ->
  reads ((spaces j ++ l) :: map (app (spaces k)) more ++ rest) (Para (map words (segments x)) :: bs).
Proof.
  intros j k x l more rest bs J P S R. pose proof (reads_no_details rest bs R) as Nd. destruct R as [n R]. pose proof (pl_plain _ _ P) as Pl. inversion Pl as [|? ? (D & O & N) F]; subst.
  pose proof (pl_marker _ _ P) as M. pose proof (pl_define _ _ P) as Df. cbn [hd] in M, Df. apply reads_step. exists n. cbn [read_step].
  rewrite is_blank_spaces, (margin_spaces j l J D). destruct (dark_margin l D) as (_ & -> & _).
  rewrite (opening_spaces j l J D (plain_fence l D O)), (plain_rule l O), (plain_atx l O), (plain_quote l O), M.
  cbn [is_some]. destruct (plain_strange l O) as [S1 S2]. unfold strange. rewrite S1, S2, N, (note_head_line l N). cbn [orb].
  destruct (read_definition (l ++ [c_nl])) as [d|] eqn:E.
  { apply definition_defines in E. destruct E as [E1 E2]. specialize (Df E1). apply Forall_inv in Df. congruence. }
  unfold read_paragraph. rewrite continuation_indented by assumption.
  assert (G : starts_with [c_lbr] l && existsb defines ((spaces j ++ l) :: map (app (spaces k)) more) = false).
  { destruct (starts_with [c_lbr] l); [|reflexivity]. cbn [andb]. specialize (Df eq_refl). inversion Df as [|? ? D1 D2]; subst. cbn [existsb]. rewrite defines_spaces, D1. cbn [orb].
    apply not_true_iff_false. intro K. apply existsb_exists in K. destruct K as (y & I & K). apply in_map_iff in I. destruct I as (z & <- & I).
    rewrite defines_spaces in K. rewrite Forall_forall in D2. rewrite (D2 z I) in K. discriminate. }
  match goal with |- (if ?b then _ else _) = _ => replace b with false by (symmetry; exact G) end. unfold read_text. rewrite Nd, R.
  assert (Ps : line_pieces ((spaces j ++ l) :: map (app (spaces k)) more) = map words (segments x)).
  { rewrite <- (pl_pieces _ _ P). apply shifted_pieces; [constructor; [exists j; reflexivity|apply shifted_same]|].
    eapply Forall_impl; [|exact Pl]. intros y Y. apply Y. }
  apply (f_equal (fun z => Some (Para z :: bs))) in Ps. exact Ps.
Qed.


(** ** Blocks *)
Lemma ind_dark : forall k ls, Forall begins_dark ls -> map (ind k) ls = map (app (spaces k)) ls.
Proof. intros k ls F. apply map_ext_in. intros l I. apply ind_cons. rewrite Forall_forall in F. destruct (F l I) as (c & r & -> & _). discriminate. Qed.
Lemma shallow_spaces : forall j l, j <= 3 -> begins_dark l -> shallow (spaces j ++ l).
Proof.
  intros j l J D. destruct (dark_margin l D) as (_ & Bl & _ & Tb). split; [rewrite is_blank_spaces; exact Bl|]. split; [|rewrite tabbed_spaces; exact Tb].
  destruct D as (c & r & -> & D). rewrite run_spaces_dark; [exact J|]. intros r' E. injection E as -> _. discriminate.
Qed.
Lemma para_shift : forall j x ls, j <= 3 -> para_lines x ls -> block_lines (map (ind j) ls) (Para (map words (segments x))).
Proof.
  intros j x ls J P. assert (Dk : Forall begins_dark ls) by (eapply Forall_impl; [|exact (pl_plain _ _ P)]; intros y Y; apply Y).
  rewrite ind_dark by exact Dk. destruct ls as [|l r]; [destruct (pl_nonempty _ _ P eq_refl)|]. cbn [map]. apply Forall_inv in Dk. split.
  - eexists. eexists. split; [reflexivity|]. split; [apply shallow_spaces; assumption|]. apply (item_line_none _ l (margin_spaces j l J Dk)). exact (pl_marker _ _ P).
  - intros rest bs F R. cbn [app]. apply reads_shifted; assumption.
Qed.
Lemma unindent_ind : forall j l, unindent j (ind j l) = l.
Proof.
  intros j [|c l]; [destruct j; reflexivity|]. rewrite ind_cons by discriminate. unfold unindent, spaces. rewrite run_len_repc.
  replace (Nat.min j (j + run_len c_sp (c :: l))) with j by lia. apply skipn_repc.
Qed.
Lemma indent_ind : forall j l i s, fence_indent (ind j l) = Some (i, s) -> exists i', fence_indent l = Some (i', s).
Proof.
  intros j [|c l] i s E; [eauto|]. rewrite ind_cons in E by discriminate. unfold fence_indent, spaces in *. rewrite run_len_repc in E.
  destruct (j + run_len c_sp (c :: l) <=? 3) eqn:Q; [|discriminate]. replace (run_len c_sp (c :: l) <=? 3) with true by lia. injection E as <- E.
  exists (run_len c_sp (c :: l)). f_equal. f_equal. rewrite <- E. clear. induction j as [|j IH]; [reflexivity|exact IH].
Qed.
Lemma closing_ind : forall fc n j l, closing_fence fc n l = false -> closing_fence fc n (ind j l) = false.
Proof.
  intros fc n j l H. unfold closing_fence in *. destruct (fence_indent (ind j l)) as [[i s]|] eqn:E; [|reflexivity].
  apply indent_ind in E. destruct E as [i' E]. rewrite E in H. exact H.
Qed.
Lemma fence_body_ind : forall fc n j ls close rest,
  Forall (fun l => closing_fence fc n l = false) ls -> closing_fence fc n close = true ->
  fence_body fc n j (map (ind j) ls ++ close :: rest) = (ls, rest).
Proof.
  intros fc n j ls close rest F C. induction F as [|l ls H F IH]; cbn [map app fence_body]; [rewrite C; reflexivity|].
  rewrite closing_ind by exact H. rewrite IH, unindent_ind. reflexivity.
Qed.
Lemma fence_shift : forall j l i s, j + i <= 3 -> fence_indent l = Some (i, s) -> fence_indent (spaces j ++ l) = Some (j + i, s).
Proof.
  intros j l i s J E. unfold fence_indent, spaces in *. rewrite run_len_repc. destruct (run_len c_sp l <=? 3) eqn:Q; [|discriminate]. injection E as <- <-.
  replace (j + run_len c_sp l <=? 3) with true by lia. f_equal. f_equal. clear. induction j as [|j IH]; [reflexivity|exact IH].
Qed.
Lemma dark_indent : forall l, begins_dark l -> fence_indent l = Some (0, l).
Proof.
  intros l (c & r & -> & D). unfold fence_indent. rewrite run_len_no; [reflexivity|]. intros r' E. injection E as -> _. discriminate.
Qed.
Lemma code_shift : forall j o info content, j <= 3 -> 3 <= min_fence_length o -> info_survives o info -> no_lone_cr content ->
  block_lines (map (ind j) (code_lines o info content)) (Code info (cm_lines content)).
Proof.
  intros j o info content J M I N. destruct (fence_line o content (info_suffix o info)) as (D & K & _). destruct (fence_line o content []) as (D2 & _ & _). rewrite app_nil_r in D2.
  unfold code_lines. cbn [map]. rewrite map_app. cbn [map].
  assert (Hd : forall l, begins_dark l -> ind j l = spaces j ++ l) by (intros l (c & r & -> & _); apply ind_cons; discriminate).
  rewrite (Hd _ D), (Hd _ D2). split.
  - eexists _, _. split; [reflexivity|]. split; [apply shallow_spaces; assumption|]. apply (item_line_none _ _ (margin_spaces j _ J D) K).
  - intros rest bs _ [n R]. apply reads_step. exists n. cbn [app read_step]. rewrite is_blank_spaces. destruct (dark_margin _ D) as (_ & -> & _).
    rewrite (margin_spaces j _ J D).
    assert (O0 : opening_fence (fence_of o content ++ info_suffix o info)
      = Some (fence_char_char (fence_char o), Nat.max (min_fence_length o) (max_fence_in_content (fence_char_char (fence_char o)) content + 1), 0, info))
      by (apply opening_fence_written; [lia|exact I]).
    assert (O : opening_fence (spaces j ++ fence_of o content ++ info_suffix o info)
      = Some (fence_char_char (fence_char o), Nat.max (min_fence_length o) (max_fence_in_content (fence_char_char (fence_char o)) content + 1), j, info)).
    { unfold opening_fence in *. rewrite (dark_indent _ D) in O0. rewrite (fence_shift j _ 0 _ ltac:(lia) (dark_indent _ D)).
      destruct (fence_of o content ++ info_suffix o info) as [|c s]; [discriminate|]. destruct (ceq c c_bt || ceq c c_tilde); [|discriminate]. cbv zeta in *.
      destruct (_ && _); [|discriminate]. rewrite Nat.add_0_r. injection O0 as -> <- <-. reflexivity. }
    rewrite O. cbn [is_some]. unfold read_code, read_fenced. rewrite O, <- app_assoc. cbn [app].
    rewrite fence_body_ind.
    + rewrite R, lines_cm by exact N. reflexivity.
    + apply no_line_closes. reflexivity.
    + assert (C : closing_fence (fence_char_char (fence_char o)) (Nat.max (min_fence_length o) (max_fence_in_content (fence_char_char (fence_char o)) content + 1)) (fence_of o content) = true)
        by (apply closing_fence_self; [apply fence_char_not_ws|]; destruct (fence_char o); discriminate).
      unfold closing_fence in *. rewrite (dark_indent _ D2) in C. rewrite (fence_shift j _ 0 _ ltac:(lia) (dark_indent _ D2)). exact C.
Qed.
Lemma gt_dark : forall l, begins_dark (quo l).
Proof. intro l. destruct (quo_eq l) as [r ->]. exists c_gt, r. split; reflexivity. Qed.
Lemma ind_quo : forall j l, ind j (quo l) = spaces j ++ quo l.
Proof. intros j l. apply ind_cons. destruct (quo_eq l) as [r ->]. discriminate. Qed.
Lemma span_shift : forall j ls rest, j <= 3 -> Forall (fun l => tabbed l = false) ls -> blank_next rest ->
  quote_span (map (ind j) (map quo ls) ++ rest) = Some (ls, rest).
Proof.
  intros j ls rest J F B. induction F as [|l ls T F IH]; cbn [map app].
  - destruct rest as [|l r]; [reflexivity|]. cbn [quote_span blank_next] in *. rewrite strip_quote_blank, B by exact B. reflexivity.
  - cbn [quote_span]. rewrite ind_quo. pose proof (strip_quo l) as S. unfold strip_quote in *. rewrite (dark_indent _ (gt_dark l)) in S.
    rewrite (fence_shift j _ 0 _ ltac:(lia) (dark_indent _ (gt_dark l))), S, T, IH. reflexivity.
Qed.
Lemma quote_heads : forall j l b, j <= 3 -> (forall m items, b <> SpecBlocks.List m items) -> heads (spaces j ++ quo l) b.
Proof.
  intros j l b J N. split; [apply shallow_spaces; [exact J|apply gt_dark]|]. assert (K : item_line (spaces j ++ quo l) = None).
  { apply (item_line_none _ _ (margin_spaces j _ J (gt_dark l))). destruct (quo_eq l) as [r ->]. reflexivity. }
  destruct b; try exact K. destruct (N m items eq_refl).
Qed.
Lemma reads_quote_shift : forall j l more bs, j <= 3 -> (exists n, read_quote (read n) ((spaces j ++ quo l) :: more) = Some bs) -> reads ((spaces j ++ quo l) :: more) bs.
Proof.
  intros j l more bs J [n E]. apply reads_step. exists n. cbn [read_step]. rewrite is_blank_spaces, (margin_spaces j _ J (gt_dark l)).
  assert (O : opening_fence (spaces j ++ quo l) = None) by (apply opening_spaces; [exact J|apply gt_dark|destruct (quo_eq l) as [r ->]; reflexivity]). rewrite O.
  destruct (quo_eq l) as [r Q]. rewrite Q in *. destruct (gt_line r) as (-> & _ & _ & -> & -> & -> & _). exact E.
Qed.
Lemma quote_shift : forall j ls bs, j <= 3 -> ls <> [] -> Forall (fun l => tabbed l = false) ls -> quote_sort_of (hd [] ls) = Plain_quote ->
  reads ls bs -> block_lines (map (ind j) (map quo ls)) (Quote bs).
Proof.
  intros j ls bs J N F Q [n1 R]. destruct ls as [|l ls]; [congruence|]. split.
  - cbn [map]. rewrite ind_quo. eexists. eexists. split; [reflexivity|]. apply quote_heads; [exact J|discriminate].
  - intros rest bs' B [n2 R'].
    assert (G : exists n, read_quote (read n) (map (ind j) (map quo (l :: ls)) ++ rest) = Some (Quote bs :: bs')).
    { exists (n1 + n2). unfold read_quote. rewrite span_shift by assumption. rewrite Q.
      rewrite (read_mono n1 (n1 + n2) ltac:(lia) _ _ R), (read_mono n2 (n1 + n2) ltac:(lia) _ _ R'). reflexivity. }
    cbn [map app] in *. rewrite ind_quo in *. apply reads_quote_shift; [exact J|exact G].
Qed.
Lemma alert_shift : forall j a ls bs, j <= 3 -> In a alert_names -> Forall (fun l => tabbed l = false) ls -> reads ls bs ->
  block_lines (map (ind j) (map quo ((lit "[!" ++ a ++ lit "]") :: ls))) (Alert a bs).
Proof.
  intros j a ls bs J A F [n1 R]. set (h := lit "[!" ++ a ++ lit "]").
  assert (T : tabbed h = false) by reflexivity.
  assert (Q : quote_sort_of h = Alert_of a).
  { unfold h. clear - A. cbn [alert_names In] in A. destruct A as [<-|[<-|[<-|[<-|[<-|[]]]]]]; vm_compute; reflexivity. }
  split.
  - cbn [map]. rewrite ind_quo. eexists. eexists. split; [reflexivity|]. apply quote_heads; [exact J|discriminate].
  - intros rest bs' B [n2 R'].
    assert (G : exists n, read_quote (read n) (map (ind j) (map quo (h :: ls)) ++ rest) = Some (Alert a bs :: bs')).
    { exists (n1 + n2). unfold read_quote. rewrite span_shift; [|exact J|constructor; assumption|exact B]. cbn [hd tl]. rewrite Q.
      rewrite (read_mono n1 (n1 + n2) ltac:(lia) _ _ R), (read_mono n2 (n1 + n2) ltac:(lia) _ _ R'). reflexivity. }
    cbn [map app] in *. rewrite ind_quo in *. apply reads_quote_shift; [exact J|exact G].
Qed.
