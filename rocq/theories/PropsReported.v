(** C67: undefined references are reported. *)
From Coq Require Import Bool Arith NArith Lia ZifyBool ZifyNat ZifyN String List.
From Verif Require Import Base BaseFacts OptsModel CodeModel AstModel StateModel InlineModel WarnModel SerModel
  SpecState SpecContext SpecDoc StateProof SerFacts DocProof SpecWarn PropsWarn WarnedProof PropsWarned SpecReported.
Import ListNotations.

(** ** Finding the reference *)
Lemma matches_skip : forall k s, ref_matches k s = ref_matches 0 (skipn k s).
Proof.
  intros k s. revert k. induction s as [|c s IH]; intros k; [destruct k; reflexivity|]. destruct k as [|k]; [reflexivity|]. cbn [ref_matches skipn]. apply IH.
Qed.
Lemma matches_step : forall c s full g1 g2 rest, ref_match (c :: s) = Some (full, g1, g2) -> c :: s = full ++ rest -> full <> [] ->
  ref_matches 0 (c :: s) = (full, g1, g2) :: ref_matches 0 rest.
Proof.
  intros c s full g1 g2 rest M E N. cbn [ref_matches]. rewrite M. f_equal. rewrite matches_skip. f_equal.
  destruct full as [|x full]; [contradiction|]. cbn [app] in E. injection E as -> ->. cbn [List.length].
  replace (Datatypes.S (List.length full) - 1) with (List.length full) by lia. rewrite skipn_app, skipn_all, Nat.sub_diag. reflexivity.
Qed.
Lemma closed_tail : forall x a, closed (x :: a) -> closed a.
Proof. intros x a H u v E. apply (H (x :: u) v). rewrite E. reflexivity. Qed.
Lemma closed_drop : forall u a, closed (u ++ a) -> closed a.
Proof. induction u as [|x u IH]; intros a H; [exact H|]. apply IH. eapply closed_tail. exact H. Qed.
Lemma split_first : forall c (s : str), In c s -> exists u v, s = u ++ c :: v /\ ~ In c u.
Proof.
  intros c s. induction s as [|x s IH]; intros H; [destruct H|]. destruct (ceq_spec x c) as [->|N]; [exists [], s; split; [reflexivity|intros []]|].
  destruct H as [E|H]; [contradiction|]. destruct (IH H) as (u & v & -> & M). exists (x :: u), v. split; [reflexivity|].
  intros [E|I]; [contradiction|exact (M I)].
Qed.
Lemma skip_first : forall g t : str, skipn (List.length (c_lbr :: g ++ [c_rbr])) (c_lbr :: g ++ c_rbr :: t) = t.
Proof. intros g t. change (c_rbr :: t) with ([c_rbr] ++ t). rewrite app_assoc. cbn [List.length skipn]. rewrite skipn_app, skipn_all, Nat.sub_diag. reflexivity. Qed.
Lemma match_group : forall g t, g <> [] -> ~ In c_rbr g -> (forall c r, g = c :: r -> c <> c_lbr) ->
  ref_match (c_lbr :: g ++ c_rbr :: t) = match strip_prefix [c_lbr] t with
    | Some r2 => match before_char c_rbr r2 with
        | Some g2 => Some ((c_lbr :: g ++ [c_rbr]) ++ [c_lbr] ++ g2 ++ [c_rbr], g, Some g2)
        | None => Some (c_lbr :: g ++ [c_rbr], g, None) end
    | None => Some (c_lbr :: g ++ [c_rbr], g, None) end.
Proof.
  intros g t Ne Nr F. unfold ref_match. rewrite ceq_refl, before_char_app by exact Nr.
  change ([c_lbr] ++ g ++ [c_rbr]) with (c_lbr :: g ++ [c_rbr]). rewrite skip_first. cbv zeta.
  destruct g as [|c g]; [contradiction|]. destruct (ceq_spec c c_lbr) as [->|]; [exfalso; exact (F _ _ eq_refl eq_refl)|reflexivity].
Qed.
Lemma reference_found : forall label b, reference_label label -> alone_or_collapsed b ->
  forall k a, List.length a <= k -> closed a ->
  exists full g1 g2, In (full, g1, g2) (ref_matches 0 (a ++ c_lbr :: label ++ c_rbr :: b)) /\ match_label (full, g1, g2) = label
    /\ exists r, full = c_lbr :: r.
Proof.
  intros label b (Ne & Nr & F) Nb.
  assert (Base0 : exists full g1 g2, In (full, g1, g2) (ref_matches 0 ([] ++ c_lbr :: label ++ c_rbr :: b)) /\ match_label (full, g1, g2) = label
    /\ exists r, full = c_lbr :: r).
  { cbn [app]. pose proof (match_group label b Ne Nr (fun c r E => proj1 (F c r E))) as M. destruct Nb as [Nb|[r ->]].
    - destruct (strip_prefix [c_lbr] b) as [r|] eqn:S0; [apply strip_prefix_some in S0; exfalso; apply (Nb r); exact S0|].
      eexists; eexists; eexists; split; [cbn [ref_matches]; rewrite M; left; reflexivity|split; [reflexivity|eexists; reflexivity]].
    - change (strip_prefix [c_lbr] (c_lbr :: c_rbr :: r)) with (Some (c_rbr :: r)) in M. change (before_char c_rbr (c_rbr :: r)) with (Some (@nil char)) in M.
      eexists; eexists; eexists; split; [cbn [ref_matches]; rewrite M; left; reflexivity|split; [reflexivity|eexists; reflexivity]]. }
  induction k as [|k IH]; intros a L C.
  1: destruct a; [|cbn in L; lia].
  2: destruct a as [|x a].
  1, 2: exact Base0.
  assert (Next : ref_match ((x :: a) ++ c_lbr :: label ++ c_rbr :: b) = None ->
    exists full g1 g2, In (full, g1, g2) (ref_matches 0 ((x :: a) ++ c_lbr :: label ++ c_rbr :: b)) /\ match_label (full, g1, g2) = label
      /\ exists r, full = c_lbr :: r).
  { intro M. cbn [app] in *. cbn [ref_matches]. rewrite M. apply IH; [cbn in L; lia|eapply closed_tail; exact C]. }
  destruct (ceq_spec x c_lbr) as [->|Nx].
  2: { apply Next. cbn [app ref_match]. destruct (ceq_spec x c_lbr); [contradiction|reflexivity]. }
  destruct (split_first _ _ (C [] a eq_refl)) as (g & a2 & -> & Ng).
  assert (B1 : before_char c_rbr ((g ++ c_rbr :: a2) ++ c_lbr :: label ++ c_rbr :: b) = Some g)
    by (rewrite <- app_assoc; cbn [app]; apply before_char_app; exact Ng).
  destruct g as [|c g].
  { apply Next. cbn [app ref_match]. rewrite ceq_refl. cbn [app] in B1. rewrite B1. reflexivity. }
  destruct (ceq c c_lbr) eqn:Nc.
  { apply Next. cbn [app ref_match]. rewrite ceq_refl. cbn [app] in B1. rewrite B1, Nc. reflexivity. }
  assert (C2 : closed a2) by (apply (closed_drop (c_lbr :: (c :: g) ++ [c_rbr])); rewrite <- app_comm_cons, <- app_assoc; exact C).
  assert (L2 : List.length a2 < k) by (cbn [List.length] in L; rewrite app_length in L; cbn [List.length] in L; lia).
  set (tl := a2 ++ c_lbr :: label ++ c_rbr :: b).
  assert (Eq : (c_lbr :: (c :: g) ++ c_rbr :: a2) ++ c_lbr :: label ++ c_rbr :: b = c_lbr :: (c :: g) ++ c_rbr :: tl)
    by (unfold tl; cbn [app]; rewrite <- app_assoc; reflexivity).
  pose proof (match_group (c :: g) tl ltac:(discriminate) Ng ltac:(intros c' r' E' Q'; injection E' as <- _; subst c; rewrite ceq_refl in Nc; discriminate)) as M.
  rewrite Eq. clear Eq Next B1.
  destruct a2 as [|d a2].
  - (* the second group *)
    assert (S0 : strip_prefix [c_lbr] tl = Some (label ++ c_rbr :: b)) by (apply strip_prefix_some; reflexivity).
    rewrite S0, before_char_app in M by exact Nr. eexists; eexists; eexists. split; [|split].
    + cbn [ref_matches]. rewrite M. left. reflexivity.
    + cbn [match_label]. destruct label; [contradiction|reflexivity].
    + eexists. reflexivity.
  - destruct (ceq_spec d c_lbr) as [->|Nd].
    + destruct (split_first _ _ (C2 [] a2 eq_refl)) as (g2 & a4 & -> & Ng2).
      assert (S0 : strip_prefix [c_lbr] tl = Some (g2 ++ c_rbr :: (a4 ++ c_lbr :: label ++ c_rbr :: b)))
        by (apply strip_prefix_some; unfold tl; cbn [app]; rewrite <- app_assoc; reflexivity).
      rewrite S0, before_char_app in M by exact Ng2.
      destruct (IH a4) as (full & h1 & h2 & I & E & X).
      * cbn [List.length] in L2. rewrite app_length in L2. cbn [List.length] in L2. lia.
      * apply (closed_drop (c_lbr :: g2 ++ [c_rbr])). rewrite <- app_comm_cons, <- app_assoc. exact C2.
      * exists full, h1, h2. split; [|split; [exact E|exact X]].
        erewrite matches_step; [right; exact I|exact M| |discriminate].
        unfold tl. cbn [app]. rewrite <- !app_assoc. cbn [app]. rewrite <- !app_assoc. reflexivity.
    + assert (S0 : strip_prefix [c_lbr] tl = None).
      { destruct (strip_prefix [c_lbr] tl) as [r|] eqn:S0; [|reflexivity]. apply strip_prefix_some in S0. unfold tl in S0. cbn [app] in S0. congruence. }
      rewrite S0 in M. destruct (IH (d :: a2)) as (full & h1 & h2 & I & E & X); [lia|exact C2|].
      exists full, h1, h2. split; [|split; [exact E|exact X]].
      erewrite matches_step; [right; exact I|exact M| |discriminate].
      fold tl. cbn [app]. rewrite <- !app_assoc. reflexivity.
Qed.

(** ** Lines in the ranges are disabled *)
Lemma end_before_first : forall checks (f : node -> bool) (P : node -> Prop) rest l e,
  (forall n, P n <-> f n = true) -> Forall (fun n => 1 <= start_line (node_pos n)) rest -> end_before checks f rest = Ok e ->
  match e with Some e => l <= e | None => True end -> before_first P rest l.
Proof.
  intros checks f P rest l e HP S E L mid n post -> N Pn. unfold end_before in E. apply HP in Pn.
  assert (F : find f (mid ++ n :: post) = Some n).
  { clear - N Pn HP. induction mid as [|x mid IH]; cbn [app find]; [rewrite Pn; reflexivity|]. inversion N as [|y ys Nx Ns]; subst.
    destruct (f x) eqn:X; [exfalso; apply Nx; apply HP; exact X|exact (IH Ns)]. }
  rewrite F in E. rewrite Forall_forall in S. assert (S1 : 1 <= start_line (node_pos n)) by (apply S; apply in_or_app; right; left; reflexivity).
  unfold line_before in E. destruct (start_line (node_pos n)) as [|k]; [lia|]. injection E as <-. lia.
Qed.
Lemma in_ranges_disabled : forall checks cs l rs, Forall (fun n => 1 <= start_line (node_pos n)) cs ->
  disabled_ranges checks cs = Ok rs -> in_ranges l rs = true -> disabled_line cs l.
Proof.
  intros checks cs l. induction cs as [|d rest IH]; intros rs S E R; cbn [disabled_ranges] in E; [injection E as <-; discriminate R|].
  inversion S as [|y ys S1 S2]; subst.
  destruct (directive_ranges checks d rest) as [a|] eqn:A; [|discriminate]. cbn [rbind] in E.
  destruct (disabled_ranges checks rest) as [b|] eqn:Bq; [|discriminate]. injection E as <-. unfold in_ranges in R. rewrite existsb_app in R.
  apply orb_true_iff in R. destruct R as [R|R].
  - unfold directive_ranges in A. destruct (directive_of d) as [dir|] eqn:Dd; [|injection A as <-; discriminate R].
    exists [], d, dir, rest. split; [reflexivity|]. split; [apply directs_iff; exact Dd|]. cbv zeta in A.
    destruct dir; try (injection A as <-; discriminate R).
    + destruct rest as [|n r]; [injection A as <-; discriminate R|]. destruct (directive_of n) as [e|] eqn:X; [injection A as <-; discriminate R|].
      injection A as <-. cbn [existsb fst snd] in R. rewrite orb_false_r in R. apply andb_true_iff in R. destruct R as [R1 R2]. apply Nat.leb_le in R1, R2.
      exists n, r. split; [reflexivity|]. split; [intros e Q; apply directs_iff in Q; congruence|lia].
    + injection A as <-. cbn [existsb fst snd] in R. rewrite orb_false_r, andb_true_r in R. apply Nat.leb_le in R. lia.
    + destruct (end_before checks is_section_heading rest) as [e|] eqn:Q; [|discriminate]. injection A as <-.
      cbn [existsb fst snd] in R. rewrite orb_false_r in R. apply andb_true_iff in R. destruct R as [R1 R2]. apply Nat.leb_le in R1.
      split; [lia|]. eapply end_before_first; [exact section_iff|exact S2|exact Q|]. destruct e; [apply Nat.leb_le; exact R2|exact Logic.I].
    + destruct (end_before checks is_enable rest) as [e|] eqn:Q; [|discriminate]. injection A as <-.
      cbn [existsb fst snd] in R. rewrite orb_false_r in R. apply andb_true_iff in R. destruct R as [R1 R2]. apply Nat.leb_le in R1.
      split; [lia|]. eapply end_before_first; [exact enable_iff|exact S2|exact Q|]. destruct e; [apply Nat.leb_le; exact R2|exact Logic.I].
  - destruct (IH b S2 eq_refl R) as (pre & d' & dir & rest' & -> & Dd & H). exists (d :: pre), d', dir, rest'. auto.
Qed.

(** ** Lines without an escaped bracket *)
Lemma find_sub_at : forall p s n, find_sub p s = Some n -> exists a b, s = a ++ p ++ b /\ List.length a = n.
Proof.
  intros p s. induction s as [|c r IH]; intros n H; cbn [find_sub] in H.
  - destruct (starts_with p []) eqn:K; [|discriminate]. injection H as <-. apply starts_with_true in K. destruct K as [b K]. exists [], b. auto.
  - destruct (starts_with p (c :: r)) eqn:K; [injection H as <-; apply starts_with_true in K; destruct K as [b K]; exists [], b; auto|].
    destruct (find_sub p r) as [m|]; [|discriminate]. injection H as <-. destruct (IH _ eq_refl) as (a & b & -> & L). exists (c :: a), b. cbn. auto.
Qed.
Lemma not_escaped : forall src k r, (forall line, nth_error src (k - 1) = Some line -> unescaped line) -> is_escaped_in_source src k (c_lbr :: r) = false.
Proof.
  intros src k r H. unfold is_escaped_in_source. destruct ((k =? 0) || (List.length src <? k)) eqn:Z; [reflexivity|].
  apply orb_false_iff in Z. destruct Z as [Z1 Z2]. apply Nat.eqb_neq in Z1. apply Nat.ltb_ge in Z2. cbv zeta.
  destruct (nth_error src (k - 1)) as [line|] eqn:N; [|apply nth_error_None in N; lia].
  match goal with |- context [nth ?i src ?d] => rewrite (nth_error_nth src i d N) end. specialize (H line eq_refl).
  destruct (find_sub (c_lbr :: r) line) as [pos|] eqn:F; [|reflexivity]. apply find_sub_at in F. destruct F as (a & b & -> & <-).
  destruct (0 <? List.length a) eqn:P; [|reflexivity]. apply Nat.ltb_lt in P. cbn [andb].
  destruct (exists_last (l := a)) as (a' & x & ->); [intro Q; subst a; cbn in P; lia|].
  rewrite app_length. cbn [List.length]. replace (List.length a' + 1 - 1) with (List.length a') by lia.
  rewrite <- app_assoc, app_nth2 by lia. rewrite Nat.sub_diag. cbn [app nth].
  destruct (ceq_spec x c_bs) as [->|]; [|reflexivity]. exfalso. apply (H a' (r ++ b)). rewrite <- !app_assoc. reflexivity.
Qed.

(** ** C67: a reference in the text of a document is reported, with its line and
    label, if no line of the source defines or abbreviates the label, the line is
    not disabled, and the brackets before it are closed. *)
Theorem C67_reported : forall checks src doc ws t p kids a label b,
  check_undefined checks src doc = Ok ws ->
  src <> [] -> Forall (fun n => 1 <= start_line (node_pos n)) (node_children doc) ->
  in_prose (Node (NText t) p kids) doc -> t = a ++ lit "[" ++ label ++ lit "]" ++ b ->
  closed a -> reference_label label -> alone_or_collapsed b ->
  Forall (fun l => ~ defines l label /\ ~ abbreviates l label) src ->
  (forall line, nth_error src (start_line p - 1) = Some line -> unescaped line) ->
  ~ disabled_line (node_children doc) (start_line p) ->
  exists w, In w ws /\ warn_line w = start_line p /\ warn_message w = lit "undefined reference link: [" ++ label ++ lit "]".
Proof.
  intros checks src doc ws t p kids a label b E S Ps P T C R Nb U Es D.
  exists (mkWarning (start_line p) (lit "undefined reference link: [" ++ label ++ [c_rbr])). split; [|split; reflexivity].
  unfold check_undefined in E. destruct src as [|l0 src0]; [contradiction|]. cbn [is_nil] in E. set (src := l0 :: src0) in *.
  destruct (disabled_ranges checks (node_children doc)) as [rs|] eqn:Rs; [|discriminate]. injection E as <-.
  apply filter_In. split.
  2: { cbn [warn_line]. destruct (in_ranges (start_line p) rs) eqn:In0; [|reflexivity]. exfalso. apply D. eapply in_ranges_disabled; eassumption. }
  assert (G : In (mkWarning (start_line p) (lit "undefined reference link: [" ++ label ++ [c_rbr]))
    (flat_map (match_warning src (captures abbreviation src) (captures source_definition src) (start_line p)) (ref_matches 0 t))).
  { destruct (reference_found label b R Nb _ a (le_n _) C) as (full & g1 & g2 & I0 & M & r & ->).
    apply in_flat_map. exists (c_lbr :: r, g1, g2). split; [rewrite T; exact I0|]. unfold match_warning.
    match goal with |- context [match_label ?x] => replace (match_label x) with label by (symmetry; exact M) end. cbv zeta. cbn [fst].
    destruct R as (Ne & Nr & F). rewrite Forall_forall in U.
    destruct label as [|c label]; [contradiction|]. destruct (F c label eq_refl) as (F1 & F2 & F3). cbn [is_nil].
    assert (Z1 : starts_with [c_caret] (c :: label) = false).
    { destruct (starts_with [c_caret] (c :: label)) eqn:Q; [|reflexivity]. apply starts_with_true in Q. destruct Q as [q Q]. injection Q as Q _. congruence. }
    assert (Z2 : starts_with [c_bang] (c :: label) = false).
    { destruct (starts_with [c_bang] (c :: label)) eqn:Q; [|reflexivity]. apply starts_with_true in Q. destruct Q as [q Q]. injection Q as Q _. congruence. }
    assert (Z3 : existsb (seqb (c :: label)) (captures abbreviation src) = false).
    { match goal with |- ?x = false => destruct x eqn:Q; [|reflexivity] end. apply existsb_exists in Q. destruct Q as (x & I1 & Q). apply seqb_true in Q. subst x.
      apply captures_in in I1. destruct I1 as (l & I1 & Q). apply abbreviation_iff in Q; [|discriminate]. exfalso. exact (proj2 (U l I1) Q). }
    assert (Z4 : existsb (seqb (c :: label)) (captures source_definition src) = false).
    { match goal with |- ?x = false => destruct x eqn:Q; [|reflexivity] end. apply existsb_exists in Q. destruct Q as (x & I1 & Q). apply seqb_true in Q. subst x.
      apply captures_in in I1. destruct I1 as (l & I1 & Q). apply definition_iff in Q; [|discriminate]. exfalso. exact (proj1 (U l I1) Q). }
    rewrite Z1, Z2, Z3, Z4, not_escaped by exact Es. left. reflexivity. }
  clear - P G. induction P as [|v q cs c V I0 P IH].
  - cbn [undefined_refs]. apply in_or_app. left. exact G.
  - assert (K : In (mkWarning (start_line p) (lit "undefined reference link: [" ++ label ++ [c_rbr]))
      (flat_map (undefined_refs src (captures abbreviation src) (captures source_definition src)) cs)) by (apply in_flat_map; exists c; split; assumption).
    destruct v; cbn [undefined_refs]; try destruct V; try exact K. apply in_or_app. right. exact K.
Qed.
Print Assumptions C67_reported.

(** So it is among the warnings of the run. *)
Theorem C67_run : forall U PN ENT o B src ends_nl checks q cs s' t p kids a label b,
  src <> [] -> Forall (fun l => ~ In c_nl l) src -> forallb no_document cs = true ->
  serialize_root U PN ENT o B src ends_nl checks (Node NDocument q cs) = Ok s' ->
  Forall (fun n => 1 <= start_line (node_pos n)) cs -> 1 <= start_line p ->
  in_prose (Node (NText t) p kids) (Node NDocument q cs) -> t = a ++ lit "[" ++ label ++ lit "]" ++ b ->
  closed a -> reference_label label -> alone_or_collapsed b ->
  Forall (fun l => ~ defines l label /\ ~ abbreviates l label) src ->
  (forall line, nth_error src (start_line p - 1) = Some line -> unescaped line) ->
  ~ disabled_line cs (start_line p) ->
  exists w, In w (warnings s') /\ warn_line w = start_line p
    /\ warn_message w = lit "undefined reference link: [" ++ label ++ lit "]".
Proof.
  intros U PN ENT o B src ends_nl checks q cs s' t p kids a label b S1 S2 Nd E Ps Pp P T C R Nb Un Es D.
  destruct (document_gives U PN ENT o B src ends_nl checks _ (dropped o B) (conj S1 S2) q cs s' Nd E) as (us & ts & Cu & _ & Q).
  destruct (C67_reported checks src (Node NDocument q cs) us t p kids a label b Cu S1 Ps P T C R Nb Un Es D) as (w & I & L & M).
  exists w. split; [|split; [exact L|exact M]].
  assert (J : In w (filter (fun w => negb (warn_line w =? 0)) (warnings s'))); [|apply filter_In in J; exact (proj1 J)].
  rewrite Q. apply filter_In. split; [apply in_or_app; left; exact I|]. rewrite L. destruct (Nat.eqb_spec (start_line p) 0); [lia|reflexivity].
Qed.
Print Assumptions C67_run.

(** ** Example: the second reference of a text in emphasis in a list. *)
Definition src67 : list str := [lit "- *see [this] and [that][gone]*"; []; lit "[this]: /u"; []; lit "*[HTML]: words"].
Definition text67 : node := Node (NText (lit "see [this] and [that][gone]")) (mkPos 1 4 1 30) [].
Definition doc67 : list node :=
  [Node (NList Bullet true) (mkPos 1 1 1 31) [Node NItem (mkPos 1 1 1 31) [Node NParagraph (mkPos 1 3 1 31) [Node NEmph (mkPos 1 3 1 31) [text67]]]]].
Example C67_witness :
  in_prose text67 (Node NDocument (mkPos 1 1 5 14) doc67)
  /\ lit "see [this] and [that][gone]" = lit "see [this] and [that]" ++ lit "[" ++ lit "gone" ++ lit "]" ++ []
  /\ closed (lit "see [this] and [that]") /\ reference_label (lit "gone") /\ alone_or_collapsed []
  /\ Forall (fun l => ~ defines l (lit "gone") /\ ~ abbreviates l (lit "gone")) src67
  /\ (forall line, nth_error src67 0 = Some line -> unescaped line) /\ ~ disabled_line doc67 1
  /\ check_undefined true src67 (Node NDocument (mkPos 1 1 5 14) doc67) = Ok [mkWarning 1 (lit "undefined reference link: [gone]")].
Proof.
  split; [|split; [|split; [|split; [|split; [|split; [|split; [|split]]]]]]].
  - repeat (eapply ip_below; [exact Logic.I|left; reflexivity|]). apply ip_here.
  - reflexivity.
  - intros u v E. repeat (destruct u as [|? u]; cbn in E; [try discriminate; injection E as <-; vm_compute; tauto|injection E as _ E]).
    destruct u; discriminate.
  - split; [discriminate|]. split; [vm_compute; intuition discriminate|]. intros c r E. injection E as <- _. repeat split; discriminate.
  - left. discriminate.
  - repeat (apply Forall_cons; [split; [intro Q; apply definition_iff in Q; [vm_compute in Q; discriminate|discriminate]
      |intro Q; apply abbreviation_iff in Q; [vm_compute in Q; discriminate|discriminate]]|]). apply Forall_nil.
  - intros line E. injection E as <-. intros u v E. repeat (destruct u as [|? u]; cbn in E; [discriminate|injection E as _ E]). destruct u; discriminate.
  - intros (pre & d & dir & rest & E & Dd & _). apply directs_iff in Dd. unfold doc67 in E.
    destruct pre as [|x pre]; [injection E as <- _; vm_compute in Dd; discriminate|]. injection E as _ E. destruct pre; discriminate.
  - vm_compute. reflexivity.
Qed.

(** ** What is false of the code *)
(** An escaped bracket hides every reference of the same label on its line:
    [is_escaped_in_source] looks at the first place where the label stands
    (document.rs:840-859). *)
Theorem C67_escaped_refuted : exists src t p a label b q,
  let doc := Node NDocument q [Node NParagraph q [Node (NText t) p []]] in
  t = a ++ lit "[" ++ label ++ lit "]" ++ b /\ closed a /\ reference_label label /\ alone_or_collapsed b
  /\ Forall (fun l => ~ defines l label /\ ~ abbreviates l label) src
  /\ (exists line u, nth_error src (start_line p - 1) = Some line /\ line = u ++ lit " [" ++ label ++ lit "]" ++ b)
  /\ check_undefined true src doc = Ok [].
Proof.
  exists [lit "\[x] and [x]"], (lit "[x] and [x]"), (mkPos 1 1 1 12), (lit "[x] and "), (lit "x"), [], (mkPos 1 1 1 12). cbv zeta.
  split; [reflexivity|]. split.
  { intros u v E. repeat (destruct u as [|? u]; cbn in E; [try discriminate; injection E as <-; vm_compute; tauto|injection E as _ E]). destruct u; discriminate. }
  split. { split; [discriminate|]. split; [vm_compute; intuition discriminate|]. intros c r E. injection E as <- _. repeat split; discriminate. }
  split; [left; discriminate|]. split.
  { apply Forall_cons; [split; [intro Q; apply definition_iff in Q; [vm_compute in Q; discriminate|discriminate]
      |intro Q; apply abbreviation_iff in Q; [vm_compute in Q; discriminate|discriminate]]|apply Forall_nil]. }
  split; [exists (lit "\[x] and [x]"), (lit "\[x] and"); split; reflexivity|]. vm_compute. reflexivity.
Qed.
Print Assumptions C67_escaped_refuted.
(** After a bracket that is not closed, the warning is about something else:
    the reference pattern takes all from that bracket on (document.rs:732). *)
Theorem C67_unclosed_refuted : exists src t p a label b q ws,
  let doc := Node NDocument q [Node NParagraph q [Node (NText t) p []]] in
  t = a ++ lit "[" ++ label ++ lit "]" ++ b /\ reference_label label /\ alone_or_collapsed b
  /\ Forall (fun l => ~ defines l label /\ ~ abbreviates l label) src /\ src = [t]
  /\ (forall line, nth_error src (start_line p - 1) = Some line -> unescaped line)
  /\ check_undefined true src doc = Ok ws
  /\ ~ exists w, In w ws /\ warn_message w = lit "undefined reference link: [" ++ label ++ lit "]".
Proof.
  exists [lit "[1, 2) and [x]"], (lit "[1, 2) and [x]"), (mkPos 1 1 1 14), (lit "[1, 2) and "), (lit "x"), [], (mkPos 1 1 1 14),
    [mkWarning 1 (lit "undefined reference link: [1, 2) and [x]")]. cbv zeta.
  split; [reflexivity|].
  split. { split; [discriminate|]. split; [vm_compute; intuition discriminate|]. intros c r E. injection E as <- _. repeat split; discriminate. }
  split; [left; discriminate|]. split.
  { apply Forall_cons; [split; [intro Q; apply definition_iff in Q; [vm_compute in Q; discriminate|discriminate]
      |intro Q; apply abbreviation_iff in Q; [vm_compute in Q; discriminate|discriminate]]|apply Forall_nil]. }
  split; [reflexivity|]. split.
  { intros line E. injection E as <-. intros u v E. repeat (destruct u as [|? u]; cbn in E; [discriminate|injection E as _ E]). destruct u; discriminate. }
  split; [vm_compute; reflexivity|]. intros (w & [<-|[]] & M). vm_compute in M. discriminate.
Qed.
Print Assumptions C67_unclosed_refuted.
(** A line in a code block that looks like a definition hides references, though
    it defines nothing (document.rs:701-717 reads all lines of the source). *)
Theorem C67_code_refuted : exists src t p a label b q q' code,
  let doc := Node NDocument q [Node NParagraph q [Node (NText t) p []]; Node (NCodeBlock [] code) q' []] in
  t = a ++ lit "[" ++ label ++ lit "]" ++ b /\ closed a /\ reference_label label /\ alone_or_collapsed b
  /\ src = [t; []; lit "~~~~"; code; lit "~~~~"] /\ start_line q' = 3 /\ end_line q' = 5
  /\ check_undefined true src doc = Ok [].
Proof.
  exists [lit "See [x]"; []; lit "~~~~"; lit "[x]: /u"; lit "~~~~"], (lit "See [x]"), (mkPos 1 1 1 7), (lit "See "), (lit "x"), [], (mkPos 1 1 1 7),
    (mkPos 3 1 5 4), (lit "[x]: /u"). cbv zeta.
  split; [reflexivity|]. split.
  { intros u v E. repeat (destruct u as [|? u]; cbn in E; [discriminate|injection E as _ E]). destruct u; discriminate. }
  split. { split; [discriminate|]. split; [vm_compute; intuition discriminate|]. intros c r E. injection E as <- _. repeat split; discriminate. }
  split; [left; discriminate|]. repeat split; vm_compute; reflexivity.
Qed.
Print Assumptions C67_code_refuted.
