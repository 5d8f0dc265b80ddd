(** C33: warnings. *)
From Coq Require Import Bool Arith NArith Lia ZifyBool ZifyNat ZifyN String List.
From Verif Require Import Base BaseFacts OptsModel WrapModel CodeModel TableModel HeadingModel AstModel StateModel
  InlineModel WarnModel SerModel SpecState SpecContext SpecDoc SpecWarn StateProof PropsState SerFacts PropsTable PropsOrder SerBuilt OutputProof
  DocProof PropsDoc DocRun.
Import ListNotations.

(** ** Undefined references *)
Lemma before_char_ok : forall c s r, before_char c s = Some r -> ~ In c r /\ exists t, s = r ++ c :: t.
Proof.
  intros c. induction s as [|x s IH]; intros r E; [discriminate|]. cbn [before_char] in E. destruct (ceq x c) eqn:C.
  - injection E as <-. apply ceq_true in C. subst. split; [intros []|]. exists s. reflexivity.
  - destruct (before_char c s) as [a|] eqn:B; [|discriminate]. injection E as <-. destruct (IH a eq_refl) as (N & t & ->).
    split; [|exists t; reflexivity]. intros [->|I]; [rewrite (proj2 (ceq_true c c) eq_refl) in C; discriminate|contradiction].
Qed.
Lemma before_char_app : forall c r t, ~ In c r -> before_char c (r ++ c :: t) = Some r.
Proof.
  intros c. induction r as [|x r IH]; intros t N; cbn [app before_char].
  - rewrite (proj2 (ceq_true c c) eq_refl). reflexivity.
  - destruct (ceq x c) eqn:C; [apply ceq_true in C; subst; exfalso; apply N; left; reflexivity|].
    rewrite IH; [reflexivity|]. intro I. apply N. right. exact I.
Qed.
Lemma skipn_len_app : forall (a b : str), skipn (List.length a) (a ++ b) = b.
Proof. intros. rewrite skipn_app, skipn_all, Nat.sub_diag. reflexivity. Qed.

Lemma ref_match_sound : forall s full g1 g2, ref_match s = Some (full, g1, g2) ->
  (exists t, s = full ++ t) /\ exists a b, full = a ++ [c_lbr] ++ match_label (full, g1, g2) ++ [c_rbr] ++ b.
Proof.
  intros s full g1 g2 E. destruct s as [|b r]; [discriminate|]. cbn [ref_match] in E. destruct (ceq b c_lbr) eqn:C; [|discriminate].
  apply ceq_true in C. subst b. destruct (before_char c_rbr r) as [[|c g]|] eqn:B1; [discriminate| |discriminate].
  destruct (before_char_ok _ _ _ B1) as (_ & t & ->). set (h := c :: g) in *. destruct (ceq c c_lbr); [discriminate|]. cbv zeta in E.
  assert (R1 : c_lbr :: h ++ c_rbr :: t = ([c_lbr] ++ h ++ [c_rbr]) ++ t) by (cbn; rewrite <- app_assoc; reflexivity).
  assert (One : Some ([c_lbr] ++ h ++ [c_rbr], h, @None str) = Some (full, g1, g2) ->
    (exists t0, c_lbr :: h ++ c_rbr :: t = full ++ t0) /\ exists a b, full = a ++ [c_lbr] ++ match_label (full, g1, g2) ++ [c_rbr] ++ b).
  { intro Q. injection Q as <- <- <-. split; [exists t; exact R1|]. exists [], []. cbn. rewrite <- ?app_assoc. reflexivity. }
  rewrite R1, skipn_len_app in E. destruct (strip_prefix [c_lbr] t) as [r2|] eqn:P; [|apply One; exact E].
  apply strip_prefix_some in P. subst t. destruct (before_char c_rbr r2) as [k|] eqn:B2; [|apply One; exact E].
  destruct (before_char_ok _ _ _ B2) as (_ & t & ->). injection E as <- <- <-. split.
  - exists t. unfold h. cbn [app]. repeat (rewrite <- !app_assoc; cbn [app]). reflexivity.
  - cbn [match_label]. destruct (is_nil k) eqn:K.
    + exists [], ([c_lbr] ++ k ++ [c_rbr]). unfold h. cbn [app]. repeat (rewrite <- !app_assoc; cbn [app]). reflexivity.
    + exists ([c_lbr] ++ h ++ [c_rbr]), []. unfold h. cbn [app]. repeat (rewrite <- !app_assoc; cbn [app]). reflexivity.
Qed.
Lemma ref_matches_sound : forall s k full g1 g2, In (full, g1, g2) (ref_matches k s) ->
  exists a b, s = a ++ [c_lbr] ++ match_label (full, g1, g2) ++ [c_rbr] ++ b.
Proof.
  induction s as [|x s IH]; intros k full g1 g2 H; [destruct H|]. cbn [ref_matches] in H.
  assert (Step : forall k', In (full, g1, g2) (ref_matches k' s) -> exists a b, x :: s = a ++ [c_lbr] ++ match_label (full, g1, g2) ++ [c_rbr] ++ b).
  { intros k' I. destruct (IH _ _ _ _ I) as (a & b & E). exists (x :: a), b. cbn [app]. f_equal. exact E. }
  destruct k as [|k]; [|eauto]. destruct (ref_match (x :: s)) as [[[f' h1] h2]|] eqn:M; [|eauto].
  destruct H as [H|H]; [|eauto]. injection H as -> -> ->. destruct (ref_match_sound _ _ _ _ M) as ((t & Et) & a & b & E).
  exists a, (b ++ t). rewrite Et. rewrite E at 1. rewrite <- !app_assoc. reflexivity.
Qed.

Lemma definition_iff : forall line label, label <> [] -> source_definition line = Some label <-> defines line label.
Proof.
  intros line label Hl. unfold source_definition, defines. split.
  - destruct (strip_prefix [c_lbr] (trim_start line)) as [r|] eqn:P; [|discriminate]. apply strip_prefix_some in P.
    destruct (before_char c_rbr r) as [l|] eqn:B; [|discriminate]. destruct (before_char_ok _ _ _ B) as (N & t & ->).
    rewrite skipn_len_app. destruct (strip_prefix (lit "]:") (c_rbr :: t)) as [tail|] eqn:P2; [|discriminate].
    apply strip_prefix_some in P2. destruct (is_nil l) eqn:L; [discriminate|]. destruct (is_nil (trim_start tail)) eqn:T; [discriminate|].
    intro E. injection E as <-. destruct (trim_start_app line) as (w & Ew & W). exists w, tail.
    destruct (trim_start tail) as [|c u] eqn:Tt; [discriminate|]. exists c. split; [|split; [exact W|split; [exact N|]]].
    + rewrite Ew, P, P2. reflexivity.
    + destruct (trim_start_app tail) as (v & Ev & _). rewrite Tt in Ev. split; [rewrite Ev; apply in_or_app; right; left; reflexivity|].
      exact (drop_while_head _ _ _ _ Tt).
  - intros (w & tail & c & -> & W & N & I & C).
    assert (T1 : trim_start (w ++ [c_lbr] ++ label ++ lit "]:" ++ tail) = [c_lbr] ++ label ++ lit "]:" ++ tail).
    { unfold trim_start. rewrite (drop_while_app_all _ _ _ W). reflexivity. }
    rewrite T1. rewrite (proj2 (strip_prefix_some [c_lbr] _ _) eq_refl).
    change (lit "]:" ++ tail) with (c_rbr :: [c_colon] ++ tail). rewrite (before_char_app _ _ _ N), skipn_len_app.
    rewrite (proj2 (strip_prefix_some (lit "]:") (c_rbr :: [c_colon] ++ tail) tail) eq_refl).
    apply is_nil_false in Hl. rewrite Hl.
    assert (T2 : is_nil (trim_start tail) = false).
    { apply is_nil_false. clear - I C. induction tail as [|y tail IH]; [destruct I|]. unfold trim_start in *. cbn [drop_while].
      destruct (is_ws y) eqn:Y; [|discriminate]. apply IH. destruct I as [->|I]; [congruence|exact I]. }
    rewrite T2. reflexivity.
Qed.
Lemma abbreviation_iff : forall line label, label <> [] -> abbreviation line = Some label <-> abbreviates line label.
Proof.
  intros line label Hl. unfold abbreviation, abbreviates. split.
  - destruct (strip_prefix (lit "*[") line) as [r|] eqn:P; [|discriminate]. apply strip_prefix_some in P. subst line.
    destruct (before_char c_rbr r) as [l|] eqn:B; [|discriminate]. destruct (before_char_ok _ _ _ B) as (N & t & ->).
    rewrite skipn_len_app. destruct (negb (is_nil l) && starts_with (lit "]:") (c_rbr :: t)) eqn:Q; [|discriminate].
    apply andb_true_iff in Q. destruct Q as [_ Q]. intro E. injection E as <-. apply starts_with_true in Q. destruct Q as [tail Q].
    exists tail. rewrite Q. split; [reflexivity|exact N].
  - intros (tail & -> & N). rewrite (proj2 (strip_prefix_some (lit "*[") _ _) eq_refl).
    change (lit "]:" ++ tail) with (c_rbr :: [c_colon] ++ tail). rewrite (before_char_app _ _ _ N), skipn_len_app.
    apply is_nil_false in Hl. rewrite Hl. cbn [negb andb].
    assert (S : starts_with (lit "]:") (c_rbr :: [c_colon] ++ tail) = true) by (apply starts_with_true; exists tail; reflexivity).
    rewrite S. reflexivity.
Qed.
Lemma captures_in : forall f src x, In x (captures f src) <-> exists l, In l src /\ f l = Some x.
Proof.
  intros f src x. unfold captures. rewrite in_flat_map. split.
  - intros (l & I & H). exists l. split; [exact I|]. destruct (f l); [|destruct H]. destruct H as [->|[]]. reflexivity.
  - intros (l & I & E). exists l. split; [exact I|]. rewrite E. left. reflexivity.
Qed.

(** Every undefined-reference warning stands on the line of a text that
    contains the bracketed label it names, and no source line defines it. *)
Definition undefined_label (src : list str) (doc : node) (w : warning) (label : str) : Prop :=
  warn_message w = lit "undefined reference link: [" ++ label ++ lit "]"
  /\ label <> []
  /\ (exists t p cs a b, within (Node (NText t) p cs) doc /\ warn_line w = start_line p
        /\ t = a ++ lit "[" ++ label ++ lit "]" ++ b)
  /\ Forall (fun l => ~ defines l label /\ ~ abbreviates l label) src.

Lemma undefined_refs_sound : forall src doc w n,
  (forall m, within m n -> within m doc) ->
  In w (undefined_refs src (captures abbreviation src) (captures source_definition src) n) ->
  exists label, undefined_label src doc w label.
Proof.
  intros src doc w. induction n as [v p cs IH] using node_ind'. intros Wn H.
  assert (Kids : In w (flat_map (undefined_refs src (captures abbreviation src) (captures source_definition src)) cs) ->
    exists label, undefined_label src doc w label).
  { intro I. apply in_flat_map in I. destruct I as (c & Ic & I). rewrite Forall_forall in IH. apply (IH c Ic); [|exact I].
    intros m M. apply Wn. eapply within_below; eassumption. }
  cbn [undefined_refs] in H. destruct v; try (apply Kids; exact H); try destruct H.
  apply in_app_or in H. destruct H as [H|H]; [|apply Kids; exact H]. clear Kids.
  apply in_flat_map in H. destruct H as ([[full g1] g2] & M & H). unfold match_warning in H. cbv zeta in H.
  set (label := match_label (full, g1, g2)) in *.
  destruct (is_nil label) eqn:Z; [destruct H|]. destruct (starts_with [c_caret] label); [destruct H|].
  destruct (starts_with [c_bang] label); [destruct H|].
  destruct (existsb (seqb label) (captures abbreviation src)) eqn:A; [destruct H|].
  destruct (existsb (seqb label) (captures source_definition src)) eqn:D; [destruct H|].
  destruct (is_escaped_in_source _ _ _); [destruct H|]. destruct H as [<-|[]]. exists label.
  apply is_nil_false in Z. split; [reflexivity|]. split; [exact Z|]. split.
  - destruct (ref_matches_sound _ _ _ _ _ M) as (a & b & E). exists text, p, cs, a, b. split; [apply Wn; constructor|]. split; [reflexivity|exact E].
  - assert (Ex : forall l, existsb (seqb label) l = false -> ~ In label l).
    { intros l Q I. assert (T : existsb (seqb label) l = true) by (apply existsb_exists; exists label; split; [exact I|apply seqb_true; reflexivity]). congruence. }
    apply Forall_forall. intros l I. split; intro Q.
    + apply (definition_iff _ _ Z) in Q. apply (Ex _ D). apply captures_in. exists l. auto.
    + apply (abbreviation_iff _ _ Z) in Q. apply (Ex _ A). apply captures_in. exists l. auto.
Qed.

Lemma find_first : forall (f : node -> bool) l n, find f l = Some n ->
  exists mid post, l = mid ++ n :: post /\ Forall (fun x => f x = false) mid /\ f n = true.
Proof.
  intros f. induction l as [|x l IH]; intros n E; [discriminate|]. cbn [find] in E. destruct (f x) eqn:F.
  - injection E as <-. exists [], l. auto.
  - destruct (IH _ E) as (mid & post & -> & A & Fn). exists (x :: mid), post. auto.
Qed.
Lemma before_first_ok : forall checks (f : node -> bool) (P : node -> Prop) rest l e,
  (forall n, P n <-> f n = true) -> before_first P rest l -> end_before checks f rest = Ok e ->
  match e with Some e => l <= e | None => True end.
Proof.
  intros checks f P rest l e HP H E. unfold end_before in E. destruct (find f rest) as [n|] eqn:F; [|injection E as <-; exact I].
  destruct (find_first _ _ _ F) as (mid & post & -> & A & Fn).
  assert (L : l < start_line (node_pos n)).
  { apply (H mid n post); [reflexivity| |apply HP; exact Fn]. eapply Forall_impl; [|exact A]. intros x X Q. cbn beta in X. apply HP in Q. congruence. }
  unfold line_before in E. destruct (start_line (node_pos n)); [lia|]. injection E as <-. lia.
Qed.
Lemma enable_iff : forall n, directs n Enable <-> is_enable n = true.
Proof.
  intro n. rewrite directs_iff. unfold is_enable. destruct (directive_of n) as [[]|]; split; congruence.
Qed.
Lemma section_iff : forall n, section_heading n <-> is_section_heading n = true.
Proof.
  intro n. unfold section_heading, is_section_heading. split.
  - intros (l & -> & H). apply Nat.leb_le. exact H.
  - destruct (node_value n); try discriminate. intro H. apply Nat.leb_le in H. eauto.
Qed.
Lemma disabled_in_ranges : forall checks cs l rs, disabled_line cs l -> disabled_ranges checks cs = Ok rs -> in_ranges l rs = true.
Proof.
  intros checks cs l rs (pre & d & dir & rest & -> & Dd & H) E. revert rs E. induction pre as [|x pre IH]; intros rs E; cbn [app disabled_ranges] in E.
  - destruct (directive_ranges checks d rest) as [a|] eqn:A; [|discriminate]. cbn [rbind] in E.
    destruct (disabled_ranges checks rest) as [b|]; [|discriminate]. injection E as <-. unfold in_ranges. rewrite existsb_app.
    apply orb_true_iff. left. apply directs_iff in Dd. unfold directive_ranges in A. rewrite Dd in A. cbv zeta in A.
    destruct dir; try contradiction; [destruct H as (x & r & -> & N & L1 & L2)| |destruct H as [H H0]..].
    + destruct (directive_of x) as [e|] eqn:X; [exfalso; apply (N e); apply directs_iff; exact X|].
      injection A as <-. cbn [existsb fst snd]. rewrite orb_false_r. apply andb_true_iff. split; apply Nat.leb_le; lia.
    + injection A as <-. cbn [existsb fst snd]. rewrite orb_false_r, andb_true_r. apply Nat.leb_le. lia.
    + destruct (end_before checks is_section_heading rest) as [e|] eqn:Q; [|discriminate]. injection A as <-.
      pose proof (before_first_ok _ _ _ _ _ _ section_iff H0 Q) as L. cbn [existsb fst snd]. rewrite orb_false_r. apply andb_true_iff.
      split; [apply Nat.leb_le; lia|]. destruct e; [apply Nat.leb_le; exact L|reflexivity].
    + destruct (end_before checks is_enable rest) as [e|] eqn:Q; [|discriminate]. injection A as <-.
      pose proof (before_first_ok _ _ _ _ _ _ enable_iff H0 Q) as L. cbn [existsb fst snd]. rewrite orb_false_r. apply andb_true_iff.
      split; [apply Nat.leb_le; lia|]. destruct e; [apply Nat.leb_le; exact L|reflexivity].
  - destruct (directive_ranges checks x (pre ++ d :: rest)) as [a|]; [|discriminate]. cbn [rbind] in E.
    destruct (disabled_ranges checks (pre ++ d :: rest)) as [b|]; [|discriminate]. injection E as <-.
    unfold in_ranges. rewrite existsb_app. apply orb_true_iff. right. apply (IH b eq_refl).
Qed.

(** C33 for undefined references, for every document: never on a disabled line,
    and always on the line of a text with that label. *)
Theorem C33_undefined_partial : forall checks src doc ws w,
  check_undefined checks src doc = Ok ws -> In w ws ->
  ~ disabled_line (node_children doc) (warn_line w) /\ exists label, undefined_label src doc w label.
Proof.
  intros checks src doc ws w E I. unfold check_undefined in E. destruct (is_nil src); [injection E as <-; destruct I|].
  destruct (disabled_ranges checks (node_children doc)) as [rs|] eqn:R; [|discriminate]. injection E as <-.
  apply filter_In in I. destruct I as [I F]. split.
  - intro D. rewrite (disabled_in_ranges _ _ _ _ D R) in F. discriminate.
  - apply (undefined_refs_sound src doc w doc); [auto|exact I].
Qed.
Print Assumptions C33_undefined_partial.

(** ** Table warnings and the whole document *)
Section Main.
Variable U : Uni.
Variable PN : list (str * str).
Variable ENT : str -> option str.
Variable o : Options.
Variable B : backend.
Variable src : list str.
Variable ends_nl : bool.
Variable checks : bool.
Hypothesis src_lines : src <> [] /\ Forall (fun l => ~ In c_nl l) src.
Notation ser := (serialize U PN ENT o B src ends_nl checks).
Notation text := (join [c_nl] src).

Lemma flush_all_warnings : forall before s s', flush_all U o checks before s = Ok s' -> warnings s' = warnings s.
Proof.
  intros before s s' E. assert (Bd : built U o checks true (only_warnings (fun _ => False)) (flush_all U o checks before)) by (apply built_flush_all; reflexivity).
  destruct (built_warnings _ _ _ _ _ _ Bd _ _ E) as ([|w ws] & Q & F); [rewrite Q, app_nil_r; reflexivity|inversion F; contradiction].
Qed.
Lemma block_warnings : forall prev n next s s', no_document n = true ->
  document_block U o src checks prev n (ser next n) s = Ok s' ->
  exists ws, warnings s' = warnings s ++ ws
    /\ (ws = [] \/ ((frozen (mode_of (skip s)) n = false \/ forall y, ~ spans text (node_pos n) y)
                    /\ Forall (fun w => warn_line w = 0 \/ table_warning src n w) ws)).
Proof.
  intros prev n next s s' D E. unfold document_block in E. cbv zeta in E. apply seqa_ok in E. destruct E as (m & E1 & E).
  assert (W1 : warnings m = warnings s).
  { destruct (heading_level n) as [[|[|[|[|?]]]]|]; try (injection E1 as <-; reflexivity);
      (destruct prev; [exact (flush_all_warnings _ _ _ E1)|injection E1 as <-; reflexivity]). }
  apply heading_flush in E1. destruct E1 as (_ & _ & _ & S & _).
  apply seqa_ok in E. destruct E as (m2 & E2 & E3). injection E2 as <-. unfold get in E3. cbn [skip set_output] in E3. rewrite S in E3.
  set (m2 := set_output (output m ++ block_separator prev n) m) in *.
  assert (W2 : warnings m2 = warnings s) by exact W1. clearbody m2. clear W1 S.
  assert (Fmt : forall m3, warnings m3 = warnings s -> ser next n m3 = Ok s' -> exists ws, warnings s' = warnings s ++ ws
      /\ Forall (fun w => warn_line w = 0 \/ table_warning src n w) ws).
  { intros m3 W E. apply serialize_warnings in E; [|exact D]. destruct E as (ws & Q & F). exists ws. rewrite <- W. auto. }
  assert (Ver : forall m3, warnings m3 = warnings s ->
    (match extract_source src (node_pos n) with
     | Ok (Some source) => emit (source ++ [c_nl])
     | Ok None => ser next n
     | Panic => panic end) m3 = Ok s' ->
    exists ws, warnings s' = warnings s ++ ws
      /\ (ws = [] \/ ((forall y, ~ spans text (node_pos n) y) /\ Forall (fun w => warn_line w = 0 \/ table_warning src n w) ws))).
  { intros m3 W E. destruct (extract_source src (node_pos n)) as [[y|]|] eqn:X; [| |discriminate].
    - injection E as <-. exists []. split; [cbn; rewrite app_nil_r; exact W|left; reflexivity].
    - destruct (Fmt _ W E) as (ws & Q & F). exists ws. split; [exact Q|]. right. split; [|exact F].
      intros z Z. apply (C32_exact _ _ _ (proj1 src_lines) (proj2 src_lines)) in Z. congruence. }
  destruct (skip s) eqn:K; cbn [mode_of] in *.
  - destruct (Fmt _ W2 E3) as (ws & Q & F). exists ws. split; [exact Q|]. right. split; [left; reflexivity|exact F].
  - apply seqa_ok in E3. destruct E3 as (m3 & E3 & E4). injection E3 as <-.
    destruct (Ver (set_skip SkipNone m2) W2 E4) as (ws & Q & [F|[F1 F2]]); exists ws; (split; [exact Q|]); [left; exact F|right; split; [right; exact F1|exact F2]].
  - rewrite section_frozen. destruct (is_section_heading n) eqn:H.
    + apply seqa_ok in E3. destruct E3 as (m3 & E3 & E4). injection E3 as <-.
      destruct (Fmt (set_skip SkipNone m2) W2 E4) as (ws & Q & F). exists ws. split; [exact Q|]. right. split; [left; reflexivity|exact F].
    + destruct (Ver m2 W2 E3) as (ws & Q & [F|[F1 F2]]); exists ws; (split; [exact Q|]); [left; exact F|right; split; [right; exact F1|exact F2]].
  - destruct (Ver m2 W2 E3) as (ws & Q & [F|[F1 F2]]); exists ws; (split; [exact Q|]); [left; exact F|right; split; [right; exact F1|exact F2]].
Qed.
Lemma output_trailing_warnings : forall cs b s s', output_trailing b cs s = Ok s' -> warnings s' = warnings s.
Proof.
  intros cs b s s' E. assert (Bd : built U o checks true (only_warnings (fun _ => False)) (output_trailing b cs)) by apply built_output_trailing.
  destruct (built_warnings _ _ _ _ _ _ Bd _ _ E) as ([|w ws] & Q & F); [rewrite Q, app_nil_r; reflexivity|inversion F; contradiction].
Qed.
Lemma directive_warnings : forall prev n l d s s', directive_act U o checks prev n l d s = Ok s' -> warnings s' = warnings s.
Proof.
  intros prev n l d s s' E. assert (Bd : built U o checks true (only_warnings (fun _ => False)) (directive_act U o checks prev n l d)) by (apply built_directive; reflexivity).
  destruct (built_warnings _ _ _ _ _ _ Bd _ _ E) as ([|w ws] & Q & F); [rewrite Q, app_nil_r; reflexivity|inversion F; contradiction].
Qed.
Lemma file_warnings : forall n l s s', disable_file U o src ends_nl checks n l s = Ok s' -> warnings s' = warnings s.
Proof.
  intros n l s s' E. assert (Bd : built U o checks true (only_warnings (fun _ => False)) (disable_file U o src ends_nl checks n l)) by (apply built_disable_file; reflexivity).
  destruct (built_warnings _ _ _ _ _ _ Bd _ _ E) as ([|w ws] & Q & F); [rewrite Q, app_nil_r; reflexivity|inversion F; contradiction].
Qed.

Lemma doc_run_warnings : forall tail prev cs s s', doc_run U PN ENT o B src ends_nl checks tail prev cs s s' ->
  forallb no_document cs = true ->
  exists ws, warnings s' = warnings s ++ ws
    /\ Forall (fun w => warn_line w = 0 \/ exists c, written text (mode_of (skip s)) cs c /\ In c cs /\ table_warning src c w) ws.
Proof.
  intros tail prev cs s s' H. induction H; intro D;
    try (cbn [forallb] in D; apply andb_true_iff in D; destruct D as [Dn D]).
  - exists []. rewrite app_nil_r. split; [|constructor]. rewrite (output_trailing_warnings _ _ _ _ H0). exact (flush_all_warnings _ _ _ H).
  - destruct (IHdoc_run D) as (ws & Q & F). exists ws. split; [exact Q|]. eapply Forall_impl; [|exact F]. cbn beta.
    intros w [Z|(c & W & I & T)]; [left; exact Z|right]. exists c. split; [apply wr_note; assumption|]. split; [right; exact I|exact T].
  - destruct (IHdoc_run D) as (ws & Q & F). exists ws. split; [exact Q|]. eapply Forall_impl; [|exact F]. cbn beta.
    intros w [Z|(c & W & I & T)]; [left; exact Z|right]. exists c. split; [apply wr_trailing; assumption|]. split; [right; exact I|exact T].
  - exists []. rewrite app_nil_r. split; [exact (file_warnings _ _ _ _ H1)|constructor].
  - destruct (IHdoc_run D) as (ws & Q & F). exists ws. rewrite (directive_warnings _ _ _ _ _ _ H2) in Q. split; [exact Q|].
    apply directive_run in H2; [|exact H0]. destruct H2 as (_ & _ & _ & _ & M). rewrite M in F. eapply Forall_impl; [|exact F]. cbn beta.
    intros w [Z|(c & W & I & T)]; [left; exact Z|right]. exists c. split; [eapply wr_directive; eassumption|]. split; [right; exact I|exact T].
  - destruct (IHdoc_run D) as (ws & Q & F). destruct (block_warnings _ _ _ _ _ Dn H0) as (ws1 & Q1 & F1). exists (ws1 ++ ws).
    split; [rewrite Q, Q1, app_assoc; reflexivity|]. apply block_run in H0; [|exact src_lines|exact Dn]. destruct H0 as (_ & _ & _ & _ & _ & M & _).
    rewrite M in F. apply Forall_app. split.
    + destruct F1 as [->|[W F1]]; [constructor|]. eapply Forall_impl; [|exact F1]. cbn beta. intros w [Z|T]; [left; exact Z|right].
      exists n. split; [apply wr_here; assumption|]. split; [left; reflexivity|exact T].
    + eapply Forall_impl; [|exact F]. cbn beta.
      intros w [Z|(c & W & I & T)]; [left; exact Z|right]. exists c. split; [apply wr_block; assumption|]. split; [right; exact I|exact T].
Qed.
Lemma notes_run_warnings : forall cs s s', notes_run U PN ENT o B src ends_nl checks cs s s' -> forallb no_document cs = true ->
  skip s' = skip s /\
  exists ws, warnings s' = warnings s ++ ws
    /\ Forall (fun w => warn_line w = 0 \/ exists c, note_definition c /\ In c cs /\ table_warning src c w) ws.
Proof.
  intros cs s s' H. induction H; intro D; try (cbn [forallb] in D; apply andb_true_iff in D; destruct D as [Dn D]).
  - split; [reflexivity|]. exists []. rewrite app_nil_r. split; [reflexivity|constructor].
  - destruct (IHnotes_run D) as (S & ws & Q & F). destruct (serialize_warnings _ _ _ _ _ _ _ _ _ _ _ _ Dn H0) as (ws1 & Q1 & F1).
    pose proof (serialize_inner _ _ _ _ _ _ _ _ _ _ _ _ Dn H0) as [S1 _ _ _ _ _]. split; [congruence|].
    exists (ws1 ++ ws). split; [rewrite Q, Q1, app_assoc; reflexivity|]. apply Forall_app. split.
    + eapply Forall_impl; [|exact F1]. cbn beta. intros w [Z|T]; [left; exact Z|right]. exists n. split; [exact H|]. split; [left; reflexivity|exact T].
    + eapply Forall_impl; [|exact F]. cbn beta. intros w [Z|(c & N & I & T)]; [left; exact Z|right]. exists c. split; [exact N|]. split; [right; exact I|exact T].
  - destruct (IHnotes_run D) as (S & ws & Q & F). split; [exact S|]. exists ws. split; [exact Q|].
    eapply Forall_impl; [|exact F]. cbn beta. intros w [Z|(c & N & I & T)]; [left; exact Z|right]. exists c. split; [exact N|]. split; [right; exact I|exact T].
Qed.

(** Where the warnings of a document come from: undefined references,
    formatter runs (line 0), and tables in footnotes or in formatted blocks. *)
Theorem C33_sources : forall p cs s' w,
  forallb no_document cs = true ->
  serialize_root U PN ENT o B src ends_nl checks (Node NDocument p cs) = Ok s' ->
  In w (warnings s') ->
  (~ disabled_line cs (warn_line w) /\ exists label, undefined_label src (Node NDocument p cs) w label)
  \/ warn_line w = 0
  \/ exists c, In c cs /\ (note_definition c \/ written text Format cs c) /\ table_warning src c w.
Proof.
  intros p cs s' w D E I. apply root_steps in E. destruct E as (ws & m1 & m2 & C & L & N & R).
  destruct (notes_run_warnings _ _ _ N D) as (S & w2 & Q2 & F2). destruct (doc_run_warnings _ _ _ _ _ R D) as (w3 & Q3 & F3).
  assert (Bd : built U o checks false (only_warnings (fun _ => False)) (collect_reference_lines (Node NDocument p cs))) by (apply built_collect_lines; apply any_refs).
  pose proof (built_inner _ _ _ _ _ Bd _ _ L) as [S1 _ _ _ _ _].
  destruct (built_warnings _ _ _ _ _ _ Bd _ _ L) as ([|x xs] & Q1 & F1); [|inversion F1; contradiction].
  rewrite app_nil_r in Q1. rewrite Q3, Q2, Q1 in I. cbn [warnings set_warnings] in I. rewrite S, S1 in F3. cbn in F3.
  apply in_app_or in I. destruct I as [I|I]; [apply in_app_or in I; destruct I as [I|I]|].
  - left. exact (C33_undefined_partial _ _ _ _ _ C I).
  - right. rewrite Forall_forall in F2. destruct (F2 _ I) as [Z|(c & A & Ic & T)]; [left; exact Z|right]. exists c. auto.
  - right. rewrite Forall_forall in F3. destruct (F3 _ I) as [Z|(c & A & Ic & T)]; [left; exact Z|right]. exists c. auto.
Qed.
End Main.
Print Assumptions C33_sources.

(** *** Formatted blocks lie outside the disabled lines *)
Section Outside.
Variable text : str.
Inductive passes : mode -> list node -> list node -> mode -> Prop :=
| ps_nil : forall m post, passes m [] post m
| ps_note : forall m n pre post m', note_definition n -> passes m pre post m' -> passes m (n :: pre) post m'
| ps_trailing : forall m n pre post m', trails n (pre ++ post) -> passes m pre post m' -> passes m (n :: pre) post m'
| ps_directive : forall m n d pre post m', directs n d -> d <> DisableFile -> passes (after_directive m d) pre post m' ->
    passes m (n :: pre) post m'
| ps_block : forall m n pre post m', ordinary n (pre ++ post) -> passes (after_block m n) pre post m' -> passes m (n :: pre) post m'.
Lemma written_passes : forall m cs c, written text m cs c -> exists pre post m', cs = pre ++ c :: post
  /\ passes m pre (c :: post) m' /\ ordinary c post /\ (frozen m' c = false \/ forall x, ~ spans text (node_pos c) x).
Proof.
  intros m cs c H. induction H.
  - exists [], cs, m. split; [reflexivity|]. split; [constructor|]. auto.
  - destruct IHwritten as (pre & post & m' & -> & P & R). exists (n :: pre), post, m'. split; [reflexivity|]. split; [apply ps_note; assumption|exact R].
  - destruct IHwritten as (pre & post & m' & -> & P & R). exists (n :: pre), post, m'. split; [reflexivity|]. split; [apply ps_trailing; assumption|exact R].
  - destruct IHwritten as (pre & post & m' & -> & P & R). exists (n :: pre), post, m'. split; [reflexivity|]. split; [eapply ps_directive; eassumption|exact R].
  - destruct IHwritten as (pre & post & m' & -> & P & R). exists (n :: pre), post, m'. split; [reflexivity|]. split; [apply ps_block; assumption|exact R].
Qed.
Lemma passes_split : forall a b post m m', passes m (a ++ b) post m' -> exists m1, passes m1 b post m'.
Proof.
  induction a as [|n a IH]; intros b post m m' H; [exists m; exact H|]. cbn [app] in H. inversion H; subst; eapply IH; eassumption.
Qed.
Lemma passes_directive : forall d dir mid post m m', directs d dir -> passes m (d :: mid) post m' ->
  dir <> DisableFile /\ passes (after_directive m dir) mid post m'.
Proof.
  intros d dir mid post m m' D H. inversion H; subst.
  - exfalso. eapply directs_not_note; eassumption.
  - exfalso. eapply directs_not_trails; eassumption.
  - match goal with Q : directs d ?e |- _ => assert (e = dir) by (eapply directs_unique; eassumption); subst e end. auto.
  - exfalso. match goal with Q : ordinary d _ |- _ => destruct Q as (_ & _ & Q); exact (Q _ D) end.
Qed.
Lemma passes_region : forall mid post m', passes Region mid post m' -> Forall quiet mid -> m' = Region.
Proof.
  induction mid as [|n mid IH]; intros post m' H F; inversion H; subst; [reflexivity|..]; inversion F as [|? ? Qn F']; subst; try (eapply IH; eassumption).
  match goal with Q : directs n ?e |- _ => specialize (Qn e Q); destruct e; try contradiction; eapply IH; eassumption end.
Qed.
Lemma section_after : forall n, ~ section_heading n -> after_block Section_ n = Section_ /\ frozen Section_ n = true.
Proof.
  intros n H. cbn [after_block]. assert (Z : frozen Section_ n = true).
  { rewrite section_frozen. destruct (is_section_heading n) eqn:E; [exfalso; apply H; apply section_iff; exact E|reflexivity]. }
  rewrite Z. auto.
Qed.
Lemma passes_section : forall mid post m', passes Section_ mid post m' -> Forall quiet mid -> Forall (fun n => ~ section_heading n) mid -> m' = Section_.
Proof.
  induction mid as [|n mid IH]; intros post m' H F G; inversion H; subst; [reflexivity|..]; inversion F as [|? ? Qn F']; subst;
    inversion G as [|? ? Gn G']; subst; try (eapply IH; eassumption).
  - match goal with Q : directs n ?e |- _ => specialize (Qn e Q); destruct e; try contradiction; eapply IH; eassumption end.
  - destruct (section_after _ Gn) as [A _]. match goal with Q : passes (after_block _ _) _ _ _ |- _ => rewrite A in Q; eapply IH; eassumption end.
Qed.
End Outside.

Lemma split_two : forall A (a b c d : list A) x y, a ++ x :: b = c ++ y :: d ->
  (a = c /\ x = y /\ b = d) \/ (exists mid, a = c ++ y :: mid /\ d = mid ++ x :: b) \/ (exists mid, c = a ++ x :: mid /\ b = mid ++ y :: d).
Proof.
  intros A. induction a as [|p a IH]; intros b [|q c] d x y E; cbn [app] in E; injection E as E1 E2; subst.
  - auto.
  - right. right. exists c. auto.
  - right. left. exists a. auto.
  - destruct (IH _ _ _ _ _ E2) as [(-> & -> & ->)|[(mid & -> & ->)|(mid & -> & ->)]]; [auto|right; left; exists mid; auto|right; right; exists mid; auto].
Qed.
Lemma in_order_low : forall cs l n, in_order l cs -> In n cs -> l < start_line (node_pos n) <= end_line (node_pos n).
Proof.
  intros cs l n H. induction H; intro I; [destruct I|]. destruct I as [->|I]; [lia|]. specialize (IHin_order I). lia.
Qed.
Lemma in_order_split : forall a l x b, in_order l (a ++ x :: b) ->
  start_line (node_pos x) <= end_line (node_pos x) /\ in_order (end_line (node_pos x)) b
  /\ forall n, In n a -> end_line (node_pos n) < start_line (node_pos x).
Proof.
  induction a as [|n a IH]; intros l x b H; cbn [app] in H; inversion H; subst.
  - split; [assumption|]. split; [assumption|intros n []].
  - match goal with Q : in_order _ (a ++ _) |- _ => destruct (IH _ _ _ Q) as (A & Bq & C); pose proof (in_order_low _ _ x Q ltac:(apply in_or_app; right; left; reflexivity)) end.
    split; [exact A|]. split; [exact Bq|]. intros k [->|I]; [lia|auto].
Qed.
Lemma none_before : forall (P : node -> Prop) (dec : forall n, P n \/ ~ P n) mid x b l L,
  before_first P (mid ++ x :: b) l -> start_line (node_pos x) <= l -> in_order L (mid ++ x :: b) -> Forall (fun n => ~ P n) (mid ++ [x]).
Proof.
  intros P dec mid x b l L H S O. destruct (in_order_split _ _ _ _ O) as (_ & _ & Bq).
  assert (G : forall done rest, mid ++ [x] = done ++ rest -> Forall (fun n => ~ P n) done -> Forall (fun n => ~ P n) (mid ++ [x])).
  { intros done rest. revert done. induction rest as [|n rest IH]; intros done E F; [rewrite E, app_nil_r; exact F|].
    apply (IH (done ++ [n])); [rewrite <- app_assoc; exact E|]. apply Forall_app. split; [exact F|]. constructor; [|constructor].
    intro Pn. assert (Eb : mid ++ x :: b = done ++ n :: rest ++ b).
    { change (mid ++ x :: b) with (mid ++ [x] ++ b). rewrite app_assoc, E, <- app_assoc. reflexivity. }
    pose proof (H done n (rest ++ b) Eb F Pn) as Q.
    assert (I : In n (mid ++ [x])) by (rewrite E; apply in_or_app; right; left; reflexivity).
    apply in_app_or in I. destruct I as [I|[->|[]]]; [|lia]. specialize (Bq _ I).
    assert (In n (mid ++ x :: b)) by (apply in_or_app; left; exact I). pose proof (in_order_low _ _ _ O H0). lia. }
  apply (G [] (mid ++ [x])); [reflexivity|constructor].
Qed.

Lemma written_outside : forall text cs c l,
  in_order 0 cs -> flat_regions cs -> Forall (fun n => exists x, spans text (node_pos n) x) cs ->
  written text Format cs c -> start_line (node_pos c) <= l <= end_line (node_pos c) -> ~ disabled_line cs l.
Proof.
  intros text cs c l O FR SP W L (pre2 & d & dir & rest & E & Dd & H).
  destruct (written_passes _ _ _ _ W) as (pre & post & m' & E1 & P & Ord & NF). rewrite E1 in *. clear E1 cs.
  assert (Frz : frozen m' c = false).
  { destruct NF as [NF|NF]; [exact NF|]. exfalso. apply Forall_app in SP. destruct SP as [_ SP]. inversion SP as [|? ? [x X] _]; subst. exact (NF _ X). }
  clear NF. destruct (in_order_split _ _ _ _ O) as (Lc & O2 & Before).
  destruct (split_two _ _ _ _ _ _ _ E) as [(-> & -> & ->)|[(mid & -> & ->)|(mid & -> & ->)]].
  - destruct Ord as (_ & _ & Q). exact (Q _ Dd).
  - (* the directive comes first *)
    destruct (passes_split _ _ _ _ _ P) as (m1 & P1). destruct (passes_directive _ _ _ _ _ _ Dd P1) as (NFile & P2).
    rewrite <- app_assoc in O. cbn [app] in O. destruct (in_order_split _ _ _ _ O) as (_ & O3 & _).
    rewrite <- app_assoc in FR. cbn [app] in FR.
    assert (Qt : (directs d Disable /\ Forall (fun m => ~ directs m Enable) (mid ++ [c]) -> Forall quiet mid)
      /\ (directs d DisableNextSection /\ Forall (fun m => ~ section_heading m) (mid ++ [c]) -> Forall quiet mid)).
    { split; intros [Q1 Q2]; apply Forall_forall; intros n I; apply in_split in I; destruct I as (a & b & ->).
      - refine (proj1 (FR pre2 d a n (b ++ c :: post) _) _); [rewrite <- app_assoc; reflexivity|]. split; [exact Q1|].
        apply Forall_app in Q2. destruct Q2 as [Q2 _]. apply Forall_app in Q2. destruct Q2 as [Q2 Q3]. inversion Q3; subst. apply Forall_app. auto.
      - refine (proj2 (FR pre2 d a n (b ++ c :: post) _) _); [rewrite <- app_assoc; reflexivity|]. split; [exact Q1|].
        apply Forall_app in Q2. destruct Q2 as [Q2 _]. apply Forall_app in Q2. destruct Q2 as [Q2 Q3]. inversion Q3; subst. apply Forall_app. auto. }
    destruct Qt as [Qt1 Qt2]. destruct dir; try contradiction.
    + destruct H as (n & r & Er & _ & L1). destruct mid as [|n' mid].
      * inversion P2; subst. discriminate Frz.
      * injection Er as -> _. specialize (Before n ltac:(apply in_or_app; right; right; left; reflexivity)). lia.
    + destruct H as [H1 H2]. cbn [after_directive] in P2.
      assert (Dec : forall n, section_heading n \/ ~ section_heading n).
      { intro n. destruct (is_section_heading n) eqn:Z; [left; apply section_iff; exact Z|right; intro Q; apply section_iff in Q; congruence]. }
      pose proof (none_before _ Dec _ _ _ _ _ H2 (proj1 L) O3) as N. specialize (Qt2 (conj Dd N)).
      apply Forall_app in N. destruct N as [N Nc]. rewrite (passes_section _ _ _ P2 Qt2 N) in Frz. inversion Nc; subst.
      destruct (section_after c) as [_ Z]; [assumption|]. congruence.
    + destruct H as [H1 H2]. cbn [after_directive] in P2.
      assert (Dec : forall n, directs n Enable \/ ~ directs n Enable).
      { intro n. destruct (is_enable n) eqn:Z; [left; apply enable_iff; exact Z|right; intro Q; apply enable_iff in Q; congruence]. }
      pose proof (none_before _ Dec _ _ _ _ _ H2 (proj1 L) O3) as N. specialize (Qt1 (conj Dd N)).
      rewrite (passes_region _ _ _ P2 Qt1) in Frz. discriminate.
  - (* the directive comes later *)
    destruct (in_order_split _ _ _ _ O2) as (L1 & O4 & _).
    pose proof (in_order_low _ _ d O2 ltac:(apply in_or_app; right; left; reflexivity)) as Ld.
    destruct dir; try contradiction; try lia.
    destruct H as (n & r & -> & _ & L2). pose proof (in_order_low _ _ n O4 ltac:(left; reflexivity)). lia.
Qed.

(** C33, the whole claim about disabled lines, for documents whose blocks lie in
    the source one after the other, without directives nested in regions and
    without tables in footnotes. *)
Theorem C33_disabled_partial : forall U PN ENT o B src ends_nl checks p cs s' w,
  src <> [] -> Forall (fun l => ~ In c_nl l) src -> forallb no_document cs = true ->
  in_order 0 cs -> flat_regions cs -> Forall (fun n => exists x, spans (join [c_nl] src) (node_pos n) x) cs ->
  (forall c aligns q rows, In c cs -> within (Node (NTable aligns) q rows) c ->
     ~ note_definition c /\ start_line (node_pos c) <= start_line q /\ end_line q <= end_line (node_pos c)) ->
  serialize_root U PN ENT o B src ends_nl checks (Node NDocument p cs) = Ok s' ->
  In w (warnings s') -> ~ disabled_line cs (warn_line w).
Proof.
  intros U PN ENT o B src ends_nl checks p cs s' w S1 S2 D O FR SP TB E I.
  destruct (C33_sources U PN ENT o B src ends_nl checks (conj S1 S2) p cs s' w D E I) as [[N _]|[Z|(c & Ic & W & T)]]; [exact N|..].
  - rewrite Z. intros (pre & d & dir & rest & -> & _ & H). destruct dir; try contradiction; try lia.
    destruct H as (n & r & -> & _ & H). pose proof (in_order_low _ _ n O ltac:(apply in_or_app; right; right; left; reflexivity)). lia.
  - destruct T as (aligns & q & rows & Wi & T). destruct (TB _ _ _ _ Ic Wi) as (ND & A & Bq). destruct W as [W|W]; [contradiction|].
    apply C33_table_warnings in T. destruct T as [T _]. eapply written_outside; try eassumption. lia.
Qed.
Print Assumptions C33_disabled_partial.

(** C33, "the text occurs on that line": true wherever texts stand in the
    source as they are. *)
Theorem C33_occurs_partial : forall checks src doc ws w,
  (forall t p cs, within (Node (NText t) p cs) doc ->
     exists line u v, nth_error src (start_line p - 1) = Some line /\ line = u ++ t ++ v) ->
  check_undefined checks src doc = Ok ws -> In w ws ->
  exists label line u v, nth_error src (warn_line w - 1) = Some line /\ line = u ++ lit "[" ++ label ++ lit "]" ++ v
    /\ warn_message w = lit "undefined reference link: [" ++ label ++ lit "]".
Proof.
  intros checks src doc ws w H E I. destruct (C33_undefined_partial _ _ _ _ _ E I) as (_ & label & M & _ & (t & p & cs & a & b & W & L & ->) & _).
  destruct (H _ _ _ W) as (line & u & v & N & Q). exists label, line, (u ++ a), (b ++ v). rewrite L. split; [exact N|].
  split; [rewrite Q, <- !app_assoc; reflexivity|exact M].
Qed.
Print Assumptions C33_occurs_partial.

(** ** Examples and refutations *)
Example C33_witness :
  let src := [dis23; []; lit "a [x]"; []; en23; []; lit "b [y]"] in
  match run23 src [html23 1 dis23; para23 3 5 (lit "a [x]"); html23 5 en23; para23 7 5 (lit "b [y]")] with
  | Ok s => warnings s = [mkWarning 7 (lit "undefined reference link: [y]")]
  | Panic => False
  end.
Proof. vm_compute. reflexivity. Qed.

(** An escaped bracket pair is reported, although its text is not on the line. *)
Theorem C33_escaped_refuted : exists src cs s w label,
  run23 src cs = Ok s /\ In w (warnings s) /\ warn_message w = lit "undefined reference link: [" ++ label ++ lit "]"
  /\ Forall (fun l => contains_sub (lit "[" ++ label ++ lit "]") l = false) src.
Proof.
  exists [lit "\[a\]"], [Node NParagraph (mkPos 1 1 1 5) [Node (NText (lit "[a]")) (mkPos 1 1 1 5) []]]. eexists.
  exists (mkWarning 1 (lit "undefined reference link: [a]")), (lit "a"). split; [vm_compute; reflexivity|].
  split; [left; reflexivity|]. split; [vm_compute; reflexivity|]. repeat constructor.
Qed.
Print Assumptions C33_escaped_refuted.

Definition table33 (l : nat) : node :=
  let cell t := Node NTableCell (mkPos l 1 l 1) [Node (NText t) (mkPos l 1 l 1) []] in
  Node (NTable [ANone; ANone]) (mkPos l 1 (l + 2) 9)
    [Node NTableRow (mkPos l 1 l 9) [cell (lit "a"); cell (lit "b")];
     Node NTableRow (mkPos (l + 2) 1 (l + 2) 9) [cell (lit "c"); cell (lit "d")]].
Definition rows33 : list str := [lit "| a | b |"; lit "|---|---|"; lit "| c | d | e | f |"].
(** A table after a disable-next-line inside a region is reported. *)
Theorem C33_nested_table_refuted : exists src cs s w,
  run23 src cs = Ok s /\ In w (warnings s) /\ disabled_line cs (warn_line w).
Proof.
  exists ([dis23; []; next23; []; lit "x"; []] ++ rows33 ++ [[]; en23]),
    [html23 1 dis23; html23 3 next23; para23 5 1 (lit "x"); table33 7; html23 11 en23].
  eexists. eexists. split; [vm_compute; reflexivity|]. split; [left; reflexivity|].
  exists [], (html23 1 dis23), Disable, [html23 3 next23; para23 5 1 (lit "x"); table33 7; html23 11 en23].
  split; [reflexivity|]. split; [apply directs_iff; vm_compute; reflexivity|]. split; [cbn; lia|].
  intros mid e post E _ Pe. cbn [warn_line].
  destruct mid as [|? [|? [|? [|? [|? ?]]]]]; try discriminate E; injection E; intros; subst; apply directs_iff in Pe; vm_compute in Pe; try discriminate Pe.
  cbn. lia.
Qed.
Print Assumptions C33_nested_table_refuted.
(** So is a table in a footnote inside a region. *)
Theorem C33_footnote_table_refuted : exists src cs s w,
  run23 src cs = Ok s /\ In w (warnings s) /\ disabled_line cs (warn_line w).
Proof.
  exists ([dis23; []; lit "[^1]:"; []] ++ map (fun l => lit "    " ++ l) rows33 ++ [[]; en23]),
    [html23 1 dis23; Node (NFootnoteDefinition (lit "1")) (mkPos 3 1 7 20) [table33 5]; html23 9 en23].
  eexists. eexists. split; [vm_compute; reflexivity|]. split; [left; reflexivity|].
  exists [], (html23 1 dis23), Disable, [Node (NFootnoteDefinition (lit "1")) (mkPos 3 1 7 20) [table33 5]; html23 9 en23].
  split; [reflexivity|]. split; [apply directs_iff; vm_compute; reflexivity|]. split; [cbn; lia|].
  intros mid e post E _ Pe. cbn [warn_line].
  destruct mid as [|? [|? [|? ?]]]; try discriminate E; injection E; intros; subst; apply directs_iff in Pe; vm_compute in Pe; try discriminate Pe.
  cbn. lia.
Qed.
Print Assumptions C33_footnote_table_refuted.

(** The hypotheses of [C33_disabled_partial] hold of the first example. *)
Definition cs33 : list node := [html23 1 dis23; para23 3 5 (lit "a [x]"); html23 5 en23; para23 7 5 (lit "b [y]")].
Lemma cs33_directs : forall n d, In n cs33 -> directs n d -> (n = html23 1 dis23 /\ d = Disable) \/ (n = html23 5 en23 /\ d = Enable).
Proof.
  intros n d I D. apply directs_iff in D. unfold cs33 in I. cbn [In] in I.
  destruct I as [<-|[<-|[<-|[<-|[]]]]]; vm_compute in D; try discriminate D; injection D as <-; auto.
Qed.
Example C33_hypotheses :
  in_order 0 cs33 /\ flat_regions cs33
  /\ Forall (fun n => exists x, spans (join [c_nl] [dis23; []; lit "a [x]"; []; en23; []; lit "b [y]"]) (node_pos n) x) cs33.
Proof.
  split; [unfold cs33; repeat constructor|]. split.
  - intros pre d mid n post E. assert (In1 : In n cs33) by (rewrite E; apply in_or_app; right; right; apply in_or_app; right; left; reflexivity).
    assert (In2 : In d cs33) by (rewrite E; apply in_or_app; right; left; reflexivity).
    split; intros [D F] e Q.
    + destruct (cs33_directs _ _ In1 Q) as [[En ->]|[En ->]].
      * exfalso. subst n. assert (I : forall x, In x (tl cs33) -> x <> html23 1 dis23) by
          (intros x [<-|[<-|[<-|[]]]]; discriminate).
        apply (I (html23 1 dis23)); [|reflexivity]. rewrite E. destruct pre; cbn [app tl]; [apply in_or_app; right; left; reflexivity|].
        apply in_or_app. right. right. apply in_or_app. right. left. reflexivity.
      * apply Forall_app in F. destruct F as [_ F]. inversion F; subst. contradiction.
    + destruct (cs33_directs _ _ In2 D) as [[_ Z]|[_ Z]]; discriminate Z.
  - unfold cs33. repeat constructor.
    + exists dis23, [], (join [c_nl] [[]; []; lit "a [x]"; []; en23; []; lit "b [y]"]). vm_compute. repeat split; auto.
    + exists (lit "a [x]"), (dis23 ++ [c_nl; c_nl]), (join [c_nl] [[]; []; en23; []; lit "b [y]"]). vm_compute. repeat split; auto.
    + exists en23, (dis23 ++ [c_nl; c_nl] ++ lit "a [x]" ++ [c_nl; c_nl]), ([c_nl; c_nl] ++ lit "b [y]"). vm_compute. repeat split; auto.
    + exists (lit "b [y]"), (dis23 ++ [c_nl; c_nl] ++ lit "a [x]" ++ [c_nl; c_nl] ++ en23 ++ [c_nl; c_nl]), []. vm_compute. repeat split; auto.
Qed.
