(** Code blocks, rules and headings as the reader of [SpecBlocks] sees them. *)
From Coq Require Import Bool Arith NArith Lia ZifyBool ZifyNat ZifyN String List.
From Verif Require Import Base BaseFacts WrapModel SpecWrap WrapProof OptsModel CodeModel HeadingModel SpecCode SpecHeading SpecRefs SpecBlocks CodeProof
  BlocksProof ParaProof NestProof SpecEnd SpecStructure.
Import ListNotations.

(** ** Code *)
Definition fence_of (o : Options) (content : str) : str :=
  repc (fence_char_char (fence_char o)) (Nat.max (min_fence_length o) (max_fence_in_content (fence_char_char (fence_char o)) content + 1)).
Definition code_lines (o : Options) (info content : str) : list str :=
  (fence_of o content ++ info_suffix o info) :: lines content ++ [fence_of o content].
Lemma fence_of_cons : forall o content, exists r, fence_of o content = fence_char_char (fence_char o) :: r.
Proof.
  intros o content. unfold fence_of.
  destruct (Nat.max (min_fence_length o) (max_fence_in_content (fence_char_char (fence_char o)) content + 1)) as [|n] eqn:E; [lia|].
  eexists. reflexivity.
Qed.
Lemma fence_dark : forall o c, is_ws c = false -> is_ws (fence_char_char (fence_char o)) = false.
Proof. intros o c _. destruct (fence_char o); reflexivity. Qed.
Lemma fence_line : forall o content t, let l := fence_of o content ++ t in
  begins_dark l /\ marker_of l = None /\ starts_with [c_lbr] l = false.
Proof.
  intros o content t l. unfold l. destruct (fence_of_cons o content) as [r ->]. destruct (fence_char o); cbn [fence_char_char app].
  - split; [exists c_tilde, (r ++ t); auto|]. split; reflexivity.
  - split; [exists c_bt, (r ++ t); auto|]. split; reflexivity.
Qed.
Lemma code_block_lines : forall o info content, 3 <= min_fence_length o -> info_survives o info -> no_lone_cr content ->
  block_lines (code_lines o info content) (Code info (cm_lines content)).
Proof.
  intros o info content M I N. destruct (fence_line o content (info_suffix o info)) as (D & K & _).
  destruct (dark_margin _ D) as (Mg & Bl & Rn & Tb). split.
  - eexists _, _. split; [reflexivity|]. split; [split; [exact Bl|split; [lia|exact Tb]]|]. apply (item_line_none _ _ Mg K).
  - intros rest bs _ [n R]. apply reads_step. exists n. unfold code_lines. cbn [app read_step]. rewrite Bl, Mg.
    assert (O : opening_fence (fence_of o content ++ info_suffix o info)
      = Some (fence_char_char (fence_char o), Nat.max (min_fence_length o) (max_fence_in_content (fence_char_char (fence_char o)) content + 1), 0, info))
      by (apply opening_fence_written; [lia|exact I]).
    rewrite O. cbn [is_some]. unfold read_code, read_fenced. rewrite O, <- app_assoc. cbn [app].
    rewrite fence_body_app.
    + rewrite R, lines_cm by exact N. reflexivity.
    + apply no_line_closes. reflexivity.
    + apply closing_fence_self; [apply fence_char_not_ws|]. destruct (fence_char o); discriminate.
Qed.
Lemma code_lines_chars : forall o info content, info_survives o info -> no_lone_cr content ->
  Forall (Forall line_char) (code_lines o info content).
Proof.
  intros o info content I N. constructor; [apply Forall_app; split; [apply repc_line_char|apply info_suffix_line_char; exact I]|].
  apply Forall_app. split; [apply lines_line_chars; exact N|]. constructor; [apply repc_line_char|constructor].
Qed.
Lemma code_lines_tabs : forall o info content, no_lone_cr content -> Forall (fun l => tabbed l = false) (cm_lines content) ->
  Forall (fun l => tabbed l = false) (code_lines o info content).
Proof.
  intros o info content N T. constructor; [apply dark_margin; apply fence_line|]. apply Forall_app. rewrite lines_cm by exact N. split; [exact T|].
  constructor; [|constructor]. rewrite <- (app_nil_r (fence_of o content)). apply dark_margin, fence_line.
Qed.
Lemma code_lines_last : forall o info content, last (code_lines o info content) [] <> [].
Proof.
  intros o info content. unfold code_lines. rewrite app_comm_cons, last_last. destruct (fence_of_cons o content) as [r ->]. discriminate.
Qed.
(** How the model writes them. *)
Lemma code_written : forall o B k info literal, exists content calls failed, settles o B k info literal content calls failed
  /\ fst (code_block o B false k info literal) = text_of (code_lines o (block_info o info) content)
  /\ fst (code_block o B true k info literal) = text_of (map quo (code_lines o (block_info o info) content))
  /\ forall w, spaces w ++ fst (code_block_indented o B false k info literal (spaces w)) = text_of (map (ind w) (code_lines o (block_info o info) content)).
Proof.
  intros o B k info literal. unfold code_block, code_block_indented.
  destruct (code_parts o B k info literal) as [[oi content] eff] eqn:E.
  apply code_parts_settles in E. destruct E as (-> & failed & S & _). exists content, (eff_calls eff), failed. split; [exact S|].
  cbn [fst]. unfold fence_for. fold (fence_of o content). unfold code_lines, text_of.
  assert (Q : forall t, quo (fence_of o content ++ t) = lit "> " ++ fence_of o content ++ t)
    by (intro t; destruct (fence_of_cons o content) as [r ->]; reflexivity).
  assert (Qi : forall w t, ind w (fence_of o content ++ t) = spaces w ++ fence_of o content ++ t)
    by (intros w t; destruct (fence_of_cons o content) as [r ->]; reflexivity).
  assert (Q0 : quo (fence_of o content) = lit "> " ++ fence_of o content) by (destruct (fence_of_cons o content) as [r ->]; reflexivity).
  assert (Qi0 : forall w, ind w (fence_of o content) = spaces w ++ fence_of o content) by (intro w; destruct (fence_of_cons o content) as [r ->]; reflexivity).
  split; [|split].
  - cbn [flat_map app]. rewrite flat_map_app. cbn [flat_map app]. rewrite app_nil_r, <- !app_assoc. reflexivity.
  - cbn [map flat_map]. rewrite map_app, flat_map_app. cbn [map flat_map]. rewrite Q, Q0, app_nil_r, <- !app_assoc.
    do 4 f_equal. f_equal. rewrite flat_map_concat_map, (flat_map_concat_map _ (map quo _)), map_map. f_equal. apply map_ext.
    intros [|c l]; reflexivity.
  - intro w. cbn [map flat_map]. rewrite map_app, flat_map_app. cbn [map flat_map app]. rewrite Qi, Qi0, app_nil_r, <- !app_assoc.
    do 4 f_equal. f_equal. rewrite flat_map_concat_map, (flat_map_concat_map _ (map (ind w) _)), map_map. reflexivity.
Qed.

(** ** Rules *)
Section Leaves.
Variable U : Uni.
Variable o : Options.
Lemma rule_block : rule_survives o -> block_lines [rule_line o] Rule /\ tabbed (rule_line o) = false /\ Forall line_char (rule_line o)
  /\ rule_line o <> [] /\ quote_sort_of (rule_line o) = Plain_quote.
Proof.
  intros (C & L & R & c & r & E & D). unfold rule_line in *. set (st := thematic_break_style o) in *.
  assert (Dk : begins_dark st) by (exists c, r; auto).
  pose proof (margin_spaces _ st L Dk) as Mg. destruct (dark_margin st Dk) as (_ & Bs & Rs & Ts).
  assert (Bl : is_blank (spaces (thematic_break_leading_spaces o) ++ st) = false) by (rewrite is_blank_spaces; exact Bs).
  assert (Ns : forall r', st <> c_sp :: r') by (intros r' K; rewrite K in E; injection E as <- _; discriminate).
  assert (Tb : tabbed (spaces (thematic_break_leading_spaces o) ++ st) = false) by (rewrite tabbed_spaces; exact Ts).
  assert (Op : opening_fence (spaces (thematic_break_leading_spaces o) ++ st) = None).
  { unfold opening_fence, fence_indent. rewrite run_spaces_dark by exact Ns. replace (thematic_break_leading_spaces o <=? 3) with true by lia.
    unfold spaces. rewrite skipn_repc, E. replace (ceq c c_bt || ceq c c_tilde) with false; [reflexivity|].
    rewrite E in R. unfold is_rule, rule_of in R. cbn [forallb] in R. rewrite (dark_not_blank c D), !orb_false_r in R.
    destruct (ceq_spec c c_bt) as [->|_]; [discriminate|]. destruct (ceq_spec c c_tilde) as [->|_]; [discriminate|reflexivity]. }
  split; [|split; [exact Tb|split; [|split]]].
  - split.
    + eexists _, []. split; [reflexivity|]. split.
      * split; [exact Bl|]. split; [rewrite run_spaces_dark by exact Ns; lia|exact Tb].
      * unfold item_line. rewrite Mg, R. reflexivity.
    + intros rest bs _ [n Rd]. apply reads_step. exists n. cbn [app read_step]. rewrite Bl, Mg, Op. cbn [is_some]. rewrite R, Rd. reflexivity.
  - exact C.
  - intro K. apply app_eq_nil in K. destruct K as [_ K]. congruence.
  - unfold quote_sort_of. assert (K : starts_with (lit "[!") (spaces (thematic_break_leading_spaces o) ++ st) = false).
    { destruct (thematic_break_leading_spaces o); [|reflexivity]. cbn [spaces repc repeat app]. rewrite E in R |- *.
      destruct (ceq_spec c c_lbr) as [->|N]; [|cbn [starts_with strip_prefix lit app]].
      - unfold is_rule, rule_of in R. cbn [forallb] in R. discriminate.
      - unfold starts_with, lit. cbn [list_ascii_of_string map strip_prefix]. change (Ascii.N_of_ascii _) with c_lbr at 1.
        destruct (ceq_spec c_lbr c) as [<-|_]; [congruence|reflexivity]. }
    rewrite K. reflexivity.
Qed.

(** ** Headings *)
Lemma read_atx_hash : forall l n t, read_atx l = Some (n, t) -> exists r, l = c_hash :: r.
Proof. intros l n t H. apply read_atx_shape in H. destruct H as (u & -> & L & _). destruct n; [lia|]. eexists. reflexivity. Qed.
Lemma hash_rule : forall r, is_rule (c_hash :: r) = false.
Proof. reflexivity. Qed.
Definition head_lines (level : nat) (t : str) : list str :=
  if (level =? 1) && setext_h1 o then [t; repc c_eq (u_width U t)]
  else if (level =? 2) && setext_h2 o then [t; repc c_dash (u_width U t)]
  else [repc c_hash level ++ [c_sp] ++ t].
Lemma underlined_dec : forall level, underlined o level \/ ~ underlined o level.
Proof.
  intro level. unfold underlined. destruct (Nat.eq_dec level 1), (Nat.eq_dec level 2), (setext_h1 o), (setext_h2 o); tauto || (right; intuition congruence).
Qed.
Lemma run_underline : forall c n, (c = c_eq \/ c = c_dash) -> 1 <= n ->
  underline (repc c n) = Some (if ceq c c_eq then 1 else 2) /\ begins_dark (repc c n).
Proof.
  intros c n C N. assert (W : is_ws c = false) by (destruct C as [->| ->]; reflexivity).
  assert (Bl : is_blank_char c = false) by (apply dark_not_blank; exact W).
  destruct n as [|n]; [lia|]. split; [|eexists _, _; split; [reflexivity|exact W]].
  unfold underline. unfold repc. cbn [repeat]. rewrite repeat_cons, drop_while_end_none_last by exact Bl. rewrite <- repeat_cons. cbn [read_underline].
  assert (F : forall m, forallb (N.eqb c) (repeat c m) = true) by (induction m as [|m IH]; [reflexivity|]; cbn [repeat forallb]; rewrite N.eqb_refl; exact IH).
  destruct C as [->| ->].
  - change (forallb (N.eqb 61) (repeat c_eq n)) with (forallb (N.eqb c_eq) (repeat c_eq n)). rewrite F. reflexivity.
  - change (forallb (N.eqb 45) (repeat c_dash n)) with (forallb (N.eqb c_dash) (repeat c_dash n)). rewrite F. reflexivity.
Qed.
Lemma setext_block : forall c t, (c = c_eq \/ c = c_dash) -> 1 <= u_width U t -> trim_blank t = t -> begins_dark t -> opener (fw t) = false -> marker_of (fw t) = None ->
  (starts_with [c_lbr] t = true -> defines t = false) ->
  block_lines [t; repc c (u_width U t)] (Head (if ceq c c_eq then 1 else 2) t).
Proof.
  intros c t C N Tr D O M Df. destruct (run_underline c (u_width U t) C N) as [Ur Du].
  destruct (dark_margin t D) as (Mg & Bl & Rn & Tb). destruct (dark_margin _ Du) as (Mu & Bu & _).
  apply marker_none in M. split.
  - eexists _, _. split; [reflexivity|]. split; [split; [exact Bl|split; [lia|exact Tb]]|]. apply (item_line_none t t Mg M).
  - intros rest bs _ [n R]. apply reads_step. exists n. cbn [app read_step]. rewrite Bl, Mg.
    rewrite (plain_fence t D O), (plain_rule t O), (plain_atx t O), (plain_quote t O), M. cbn [is_some].
    destruct (plain_strange t O) as [S1 S2]. unfold strange. rewrite S1, S2.
    assert (Nl : note_line t = false).
    { unfold note_line. destruct (starts_with (lit "[^") t) eqn:K; [|reflexivity]. cbn [andb]. apply Df.
      apply starts_with_true in K. destruct K as [r ->]. reflexivity. }
    rewrite Nl, (note_head_line t Nl). cbn [orb].
    destruct (read_definition (t ++ [c_nl])) as [d|] eqn:E.
    { apply definition_defines in E. destruct E as [E1 E2]. rewrite (Df E1) in E2. discriminate. }
    unfold read_paragraph. cbn [continuation]. rewrite Bu, Mu, Ur. cbn [existsb].
    assert (G : starts_with [c_lbr] t && (defines t || false) = false).
    { destruct (starts_with [c_lbr] t); [|reflexivity]. rewrite (Df eq_refl). reflexivity. }
    rewrite G, R, Tr. reflexivity.
Qed.
Lemma count_hashes_written : forall n r, count_hashes (repc c_hash n ++ c_sp :: r) = (n, c_sp :: r).
Proof.
  intros n r. induction n as [|n IH]; [reflexivity|]. unfold repc in *. cbn [repeat app count_hashes].
  change (N.eqb c_hash 35) with true. cbv iota. rewrite IH. reflexivity.
Qed.
Lemma atx_block : forall level t, 1 <= level <= 6 -> atx_text t = t -> block_lines [repc c_hash level ++ [c_sp] ++ t] (Head level t).
Proof.
  intros level t L A.
  assert (Ra : read_atx (repc c_hash level ++ [c_sp] ++ t) = Some (level, t)).
  { unfold read_atx. cbn [app]. rewrite count_hashes_written. replace ((1 <=? level) && (level <=? 6)) with true by lia. reflexivity. }
  destruct (read_atx_hash _ _ _ Ra) as [r E]. rewrite E in *.
  assert (D : begins_dark (c_hash :: r)) by (eexists _, _; split; reflexivity).
  destruct (dark_margin _ D) as (Mg & Bl & Rn & Tb). split.
  - eexists _, _. split; [reflexivity|]. split; [split; [exact Bl|split; [lia|exact Tb]]|]. apply (item_line_none _ _ Mg). reflexivity.
  - intros rest bs _ [n R]. apply reads_step. exists n. cbn [app read_step]. rewrite Bl, Mg.
    change (opening_fence (c_hash :: r)) with (@None (char * nat * nat * str)). cbn [is_some]. rewrite hash_rule, Ra, R, A. reflexivity.
Qed.
Lemma head_block : forall level t, heading_line U o level t -> block_lines (head_lines level t) (Head level t)
  /\ Forall (Forall line_char) (head_lines level t) /\ last (head_lines level t) [] <> []
  /\ head_lines level t <> [].
Proof.
  intros level t (C & L & S & A).
  assert (SD : forall c, (c = c_eq \/ c = c_dash) -> underlined o level -> (if ceq c c_eq then 1 else 2) = level ->
     block_lines [t; repc c (u_width U t)] (Head level t) /\ Forall (Forall line_char) [t; repc c (u_width U t)] /\ last [t; repc c (u_width U t)] [] <> []).
  { intros c Cc Hu El. destruct (S Hu) as (W & T & D & O & M & Df). rewrite <- El. destruct (first_word t D) as (t' & _ & _ & _ & Sp).
    rewrite Sp in O, M. cbn [hd] in O, M. split; [apply setext_block; assumption|]. split.
    - constructor; [exact C|]. constructor; [|constructor]. apply repc_forall. destruct Cc as [->| ->]; split; discriminate.
    - cbn [last]. destruct (u_width U t); [lia|discriminate]. }
  unfold head_lines. destruct ((level =? 1) && setext_h1 o) eqn:E1.
  - apply andb_true_iff in E1. destruct E1 as [E1 E1']. apply Nat.eqb_eq in E1.
    destruct (SD c_eq) as (X & Y & Z); [auto|left; auto|symmetry; exact E1|]. split; [exact X|]. split; [exact Y|]. split; [exact Z|discriminate].
  - destruct ((level =? 2) && setext_h2 o) eqn:E2.
    + apply andb_true_iff in E2. destruct E2 as [E2 E2']. apply Nat.eqb_eq in E2.
      destruct (SD c_dash) as (X & Y & Z); [auto|right; auto|symmetry; exact E2|]. split; [exact X|]. split; [exact Y|]. split; [exact Z|discriminate].
    + assert (Nu : ~ underlined o level) by (intros [[-> K]|[-> K]]; rewrite K in *; discriminate).
      split; [apply atx_block; [exact L|exact (A Nu)]|]. split; [|split; [|discriminate]].
      * constructor; [|constructor]. apply Forall_app. split; [apply repc_forall; split; discriminate|]. constructor; [split; discriminate|exact C].
      * cbn [last]. destruct level; [lia|discriminate].
Qed.
End Leaves.
Lemma head_written : forall U PN o level text, exists t,
  t = (if heading_sentence_case o then to_sentence_case U PN (heading_proper_nouns o) (heading_common_nouns o) text else text)
  /\ heading_output U PN o [] [] level text = text_of (head_lines U o level t).
Proof.
  intros U PN o level text. eexists. split; [reflexivity|]. unfold heading_output, head_lines. cbv zeta. rewrite !app_nil_r.
  destruct ((level =? 1) && setext_h1 o); [|destruct ((level =? 2) && setext_h2 o)]; unfold text_of; cbn [flat_map]; rewrite app_nil_r, <- ?app_assoc; reflexivity.
Qed.
