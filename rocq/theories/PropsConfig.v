(** Properties C13-C17, C34: configuration. *)
From Coq Require Import Bool Arith NArith ZArith Lia String List.
From Verif Require Import Base BaseFacts OptsModel ConfigModel SpecConfig ConfigProof PunctModel.
Import ListNotations.

Ltac conjs := match goal with |- _ /\ _ => split; [|conjs] | _ => idtac end.

(** ** C14 *)

(** Every value type accepts exactly its documented range and stores the value. *)
Theorem C14_ranges_exact : forall v w : nat,
  (line_width_new v = Rok w <-> 8 <= v /\ w = v)
  /\ (leading_spaces_new v = Rok w <-> v <= 3 /\ w = v)
  /\ (trailing_spaces_new v = Rok w <-> v <= 3 /\ w = v)
  /\ (indent_width_new v = Rok w <-> 1 <= v /\ w = v)
  /\ (min_fence_length_new v = Rok w <-> 3 <= v /\ w = v).
Proof.
  intros. conjs;
    [apply line_width_ok|apply leading_ok|apply trailing_ok|apply indent_ok|apply min_fence_ok].
Qed.
Theorem C14_dash_pattern_exact : forall p w : str,
  dash_pattern_new p = Rok w <-> (p <> [] /\ printable_ascii_no_space p) /\ w = p.
Proof. exact dash_pattern_ok. Qed.
Print Assumptions C14_ranges_exact.
Print Assumptions C14_dash_pattern_exact.

(** Whatever the configuration files contain, and whatever [--line-width] is,
    the options the command line formats with are in range. *)
Theorem C14_cli_options_in_range : forall fs d cwd explicit width o,
  cli_options (fst (load_config fs d cwd explicit)) width = SetupOk o -> options_in_range o.
Proof.
  intros fs d cwd e w o H. unfold cli_options in H.
  destruct (build_options (fst (load_config fs d cwd e)) w) as [o'|] eqn:E; [|discriminate].
  apply (build_options_range _ _ _ (load_config_range fs d cwd e)) in E.
  destruct (forallb _ _); [|discriminate].
  destruct (validate_dash_settings o'); [|discriminate]. inversion H; subst. exact E.
Qed.
Print Assumptions C14_cli_options_in_range.
Example C14_example :
  line_width_new 8 = Rok 8 /\ line_width_new 7 = Rerr /\ leading_spaces_new 3 = Rok 3 /\ leading_spaces_new 4 = Rerr
  /\ dash_pattern_new (lit "a b") = Rerr /\ dash_pattern_new (lit "--") = Rok (lit "--").
Proof. repeat split; vm_compute; reflexivity. Qed.
Definition ex_fs1 : filesystem := fun p =>
  if list_eq_dec (list_eq_dec N.eq_dec) p (config_file_name :: [lit "proj"])
  then FParsed [(lit "line_width", TInt 20); (lit "unordered_list", TTab [(lit "leading_spaces", TInt 2)])]
  else FAbsent.
Example C14_cli_example : exists o,
  cli_options (fst (load_config ex_fs1 (mkDirs None None) [lit "sub"; lit "proj"] None)) (Some 30) = SetupOk o
  /\ line_width o = 30 /\ leading_spaces o = 2.
Proof. eexists. repeat split; vm_compute; reflexivity. Qed.

(** An out-of-range [--line-width] is not reported: the program panics. *)
Theorem C14_line_width_flag_panics_refuted : exists c w,
  cfg_in_range c /\ cli_options c (Some w) = SetupPanic.
Proof. exists default_config, 7. split; [apply default_config_range|reflexivity]. Qed.

(** ** C13 *)

(** The command line gets past setup only without a conflict, and a conflict
    (or an empty formatter command) is the only reason for an error. *)
Theorem C13_cli_rejects_exactly_conflicts : forall c width o,
  build_options c width = Some o ->
  (cli_options c width = SetupOk o <->
     (forall p, ~ (en_dash o = DPattern p /\ em_dash o = DPattern p))
     /\ (forall lang cmd t, In (lang, (cmd, t)) (cb_formatters (c_cb c)) -> cmd <> []))
  /\ (cli_options c width = SetupOk o \/ cli_options c width = SetupError).
Proof.
  intros c w o H. unfold cli_options. rewrite H.
  assert (F : forallb (fun e => formatter_validate (snd e)) (cb_formatters (c_cb c)) = true <->
              (forall lang cmd t, In (lang, (cmd, t)) (cb_formatters (c_cb c)) -> cmd <> [])).
  { rewrite forallb_forall. split.
    - intros G lang cmd t Hin Hn. specialize (G _ Hin). subst. discriminate.
    - intros G [lang [cmd t]] Hin. cbn. specialize (G _ _ _ Hin). destruct cmd; [congruence|reflexivity]. }
  assert (V : validate_dash_settings o = Rok tt <-> (forall p, ~ (en_dash o = DPattern p /\ em_dash o = DPattern p))).
  { unfold validate_dash_settings. destruct (en_dash o) as [|en], (em_dash o) as [|em]; split; intro G; auto;
      try (intros p [G1 G2]; discriminate).
    - intros p [G1 G2]. inversion G1; inversion G2; subst. rewrite seqb_refl in G. discriminate.
    - destruct (seqb en em) eqn:E; auto. apply seqb_true in E. subst. exfalso. apply (G em). auto. }
  destruct (forallb _ _) eqn:E1.
  - destruct (validate_dash_settings o) as [[]|] eqn:E2; split; auto.
    + split; auto. intros _. split; [apply V|apply F]; auto.
    + split; [discriminate|]. intros [G _]. apply V in G. discriminate.
  - split; auto. split; [discriminate|]. intros [_ G]. apply F in G. discriminate.
Qed.
Print Assumptions C13_cli_rejects_exactly_conflicts.
Example C13_cli_example :
  let c p := mkConfig false 80 [] [] true default_heading default_ul default_ol default_cb default_tb
               (mkPC true true false true (DPattern p) (DPattern (lit "--"))) in
  cli_options (c (lit "--")) None = SetupError /\ exists o, cli_options (c (lit "-")) None = SetupOk o.
Proof. split; [vm_compute; reflexivity|]. eexists. vm_compute. reflexivity. Qed.

(** The JavaScript entry point formats with conflicting patterns; the en dash
    is then silently never produced. *)
Theorem C13_javascript_conflict_refuted : exists (j : JsOptions) (p : str),
  en_dash (to_options j) = DPattern p /\ em_dash (to_options j) = DPattern p
  /\ j_em_dash j = None /\ validate_dash_settings (to_options j) = Rerr
  /\ transform_punctuation uni_ascii (to_options j) (lit "1 -- 2") = lit "1 " ++ [c_emdash] ++ lit " 2".
Proof.
  exists (mkJs None None None None None None None None None None None None None None None None None None None None
               None None None None (Some (JPattern (lit "--"))) None), (lit "--").
  repeat split; vm_compute; reflexivity.
Qed.
Print Assumptions C13_javascript_conflict_refuted.

(** ** C15 *)

(** Accepted styles are valid thematic breaks provided they start with their
    marker and use a single kind of marker. Missing for the full claim: styles
    with leading white space and styles that mix markers, refuted below. *)
Theorem C15_style_valid_partial : forall style m body lead,
  thematic_break_style_new style = Rok style ->
  style = m :: body -> is_tb_marker m -> Forall (fun c => c = m \/ is_tb_space c) body -> lead <= 3 ->
  cm_thematic_break (spaces lead ++ style).
Proof. exact style_valid. Qed.
Print Assumptions C15_style_valid_partial.

(** Conversely no valid break is refused. *)
Theorem C15_valid_breaks_accepted : forall m body, is_tb_marker m ->
  Forall (fun c => c = m \/ is_tb_space c) body -> 3 <= count_char m (m :: body) ->
  thematic_break_style_new (m :: body) = Rok (m :: body).
Proof. exact style_complete. Qed.
Print Assumptions C15_valid_breaks_accepted.
Example C15_example : cm_thematic_break (spaces 3 ++ lit "* *	*").
Proof.
  apply C15_style_valid_partial with (m := c_star) (body := lit " *	*"); try (vm_compute; reflexivity); try lia.
  - left; reflexivity.
  - unfold is_tb_space. repeat (apply Forall_cons; [cbn; auto|]). apply Forall_nil.
Qed.

Lemma thematic_break_line_charset : forall line, cm_thematic_break line ->
  exists m, forall c, In c line -> c = m \/ is_tb_space c.
Proof.
  intros line (i & m & b & -> & _ & _ & F & _). exists m. intros c H. apply in_app_or in H. destruct H as [H|[H|H]].
  - right. left. unfold spaces in H. clear -H. induction i; cbn in H; intuition.
  - left; auto.
  - rewrite Forall_forall in F. apply F; auto.
Qed.
(** "***-" is accepted, but mixed markers are not a thematic break. *)
Theorem C15_mixed_markers_refuted : exists style, thematic_break_style_new style = Rok style
  /\ forall lead, ~ cm_thematic_break (spaces lead ++ style).
Proof.
  exists (lit "***-"). split; [vm_compute; reflexivity|]. intros lead H.
  apply thematic_break_line_charset in H. destruct H as [m H].
  assert (A : c_star = m).
  { destruct (H c_star) as [K|[K|K]]; auto; try discriminate. apply in_or_app. right. left. reflexivity. }
  assert (B : c_dash = m).
  { destruct (H c_dash) as [K|[K|K]]; auto; try discriminate. apply in_or_app. right. vm_compute. auto. }
  rewrite <- B in A. discriminate.
Qed.
Print Assumptions C15_mixed_markers_refuted.

(** White space in front of the style is kept and adds to the configured
    leading spaces: with the default of three, " ***" becomes indented code. *)
Theorem C15_leading_space_refuted : exists style, thematic_break_style_new style = Rok style
  /\ cm_thematic_break style /\ ~ cm_thematic_break (spaces 3 ++ style).
Proof.
  exists (lit " ***"). split; [vm_compute; reflexivity|]. split.
  - exists 1, c_star, (lit "**"). repeat split; try lia; try (left; reflexivity);
      try (vm_compute; repeat constructor; auto; fail).
  - intros (i & m & b & E & Hi & Hm & _). do 4 (destruct i as [|i]; [cbn in E; injection E as <- _;
      destruct Hm as [K|[K|K]]; discriminate|cbn in E; try (injection E as E)]). lia.
Qed.
Print Assumptions C15_leading_space_refuted.

(** ** C17 *)

(** Discovery finds the file of the start directory or its nearest ancestor.
    A path lists its components innermost first, so the ancestors of [cwd]
    are its suffixes. *)
Definition has_config (fs : filesystem) (dir : path) : Prop := fs (lit ".hongdown.toml" :: dir) <> FAbsent.
Definition nearest_config (fs : filesystem) (cwd dir : path) : Prop :=
  (exists pre, cwd = pre ++ dir) /\ has_config fs dir
  /\ forall dir', (exists pre, cwd = pre ++ dir') -> has_config fs dir' -> List.length dir' <= List.length dir.
Lemma fs_absent_dec : forall f : file, f = FAbsent \/ f <> FAbsent.
Proof. intros []; auto; right; discriminate. Qed.
Lemma nearest_of_spec : forall fs cwd pre d, cwd = pre ++ d -> fs (config_file_name :: d) <> FAbsent ->
  (forall pre' x rest, pre = pre' ++ x :: rest -> fs (config_file_name :: (x :: rest) ++ d) = FAbsent) ->
  nearest_config fs cwd d.
Proof.
  intros fs cwd pre d E H1 H2. repeat split; eauto.
  intros dir' [pre' E'] H3. destruct (Nat.le_gt_cases (List.length dir') (List.length d)); auto. exfalso.
  rewrite E in E'. 
  assert (exists w, dir' = w ++ d /\ pre = pre' ++ w) as [w [-> ->]].
  { clear -E' H. revert pre' E'. induction pre as [|x pre IH]; intros pre' E'.
    - exfalso. cbn in E'. apply (f_equal (@List.length _)) in E'. rewrite app_length in E'. lia.
    - destruct pre' as [|y pre'].
      + cbn in E'. subst. exists (x :: pre). auto.
      + cbn in E'. injection E' as -> E'. destruct (IH _ E') as [w [-> ->]]. exists w. auto. }
  destruct w as [|x rest]; [cbn in H; lia|]. apply H3. apply (H2 pre' x rest). reflexivity.
Qed.
Lemma nearest_unique : forall fs cwd d d', nearest_config fs cwd d -> nearest_config fs cwd d' -> d = d'.
Proof.
  intros fs cwd d d' ([p1 E1] & H1 & L1) ([p2 E2] & H2 & L2).
  assert (List.length d = List.length d') by (apply Nat.le_antisymm; eauto).
  rewrite E1 in E2. clear -E2 H. revert p2 E2. induction p1 as [|x p1 IH]; intros p2 E2.
  - destruct p2; auto. apply (f_equal (@List.length _)) in E2. cbn in E2. rewrite app_length in E2. lia.
  - destruct p2 as [|y p2].
    + apply (f_equal (@List.length _)) in E2. cbn in E2. rewrite app_length in E2. lia.
    + cbn in E2. injection E2 as _ E2. eauto.
Qed.

Theorem C17_nearest_ancestor : forall fs cwd,
  (discover_project_config fs cwd = Rok None <-> forall dir, (exists pre, cwd = pre ++ dir) -> ~ has_config fs dir)
  /\ (forall p l, discover_project_config fs cwd = Rok (Some (p, l)) <->
        exists dir t, nearest_config fs cwd dir /\ p = lit ".hongdown.toml" :: dir /\ fs p = FParsed t /\ de_layer t = Rok l)
  /\ (discover_project_config fs cwd = Rerr <->
        exists dir, nearest_config fs cwd dir
          /\ forall t l, fs (lit ".hongdown.toml" :: dir) = FParsed t -> de_layer t <> Rok l).
Proof.
  intros fs cwd. destruct (discover_spec fs cwd) as [[H1 H2]|[pre [d [H1 [H2 [H3 H4]]]]]].
  - assert (N : forall dir, ~ nearest_config fs cwd dir).
    { intros dir ([p E] & Hc & _). apply Hc. eapply H2; eauto. }
    rewrite H1. conjs.
    + split; auto. intros _ dir [p E] Hc. apply Hc. eapply H2; eauto.
    + intros p l. split; [discriminate|]. intros (dir & t & K & _). exfalso. eapply N; eauto.
    + split; [discriminate|]. intros (dir & K & _). exfalso. eapply N; eauto.
  - pose proof (nearest_of_spec fs cwd pre d H1 H2 H3) as Hn. rewrite H4. clear H4.
    assert (Hh : has_config fs d) by exact H2.
    assert (L : forall l, layer_from_file fs (config_file_name :: d) = Rok l <-> exists t, fs (config_file_name :: d) = FParsed t /\ de_layer t = Rok l).
    { intro l. unfold layer_from_file. destruct (fs (config_file_name :: d)); split; intro K; try discriminate.
      1,2: destruct K as [t' [K1 K2]]; discriminate.
      - exists t. auto.
      - destruct K as [t' [K1 K2]]. congruence. }
    conjs.
    + split; intro K.
      * destruct (layer_from_file fs (config_file_name :: d)); discriminate.
      * exfalso. apply (K d); eauto.
    + intros p l. split; intro K.
      * destruct (layer_from_file fs (config_file_name :: d)) as [l'|] eqn:E; [|discriminate]. cbn in K.
        inversion K; subst. destruct (proj1 (L l) eq_refl) as [t [E1 E2]]. exists d, t. auto.
      * destruct K as (dir & t & K1 & -> & K2 & K3).
        assert (dir = d) by (eapply nearest_unique; eauto). subst dir.
        replace (layer_from_file fs (config_file_name :: d)) with (Rok l) by (symmetry; apply L; eauto). reflexivity.
    + split; intro K.
      * exists d. split; auto. intros t l E1 E2.
        replace (layer_from_file fs (config_file_name :: d)) with (Rok l) in K by (symmetry; apply L; eauto). discriminate.
      * destruct K as (dir & K1 & K2). assert (dir = d) by (eapply nearest_unique; eauto). subst dir.
        destruct (layer_from_file fs (config_file_name :: d)) as [l|] eqn:E; auto.
        destruct (proj1 (L l) eq_refl) as [t [E1 E2]]. exfalso. eapply K2; eauto.
Qed.
Print Assumptions C17_nearest_ancestor.
(** [Config::discover] of the library, which reads whole configurations: the same. *)
Theorem C17_discover : forall fs cwd,
  (discover fs cwd = Rok None <-> forall dir, (exists pre, cwd = pre ++ dir) -> ~ has_config fs dir)
  /\ (forall p l, discover fs cwd = Rok (Some (p, l)) <->
        exists dir t, nearest_config fs cwd dir /\ p = lit ".hongdown.toml" :: dir /\ fs p = FParsed t /\ de_config t = Rok l)
  /\ (discover fs cwd = Rerr <->
        exists dir, nearest_config fs cwd dir
          /\ forall t l, fs (lit ".hongdown.toml" :: dir) = FParsed t -> de_config t <> Rok l).
Proof.
  intros fs cwd. destruct (discover_config_spec fs cwd) as [[H1 H2]|[pre [d [H1 [H2 [H3 H4]]]]]].
  - assert (N : forall dir, ~ nearest_config fs cwd dir).
    { intros dir ([p E] & Hc & _). apply Hc. eapply H2; eauto. }
    rewrite H1. conjs.
    + split; auto. intros _ dir [p E] Hc. apply Hc. eapply H2; eauto.
    + intros p l. split; [discriminate|]. intros (dir & t & K & _). exfalso. eapply N; eauto.
    + split; [discriminate|]. intros (dir & K & _). exfalso. eapply N; eauto.
  - pose proof (nearest_of_spec fs cwd pre d H1 H2 H3) as Hn. rewrite H4. clear H4.
    assert (Hh : has_config fs d) by exact H2.
    assert (L : forall l, config_from_file fs (config_file_name :: d) = Rok l <-> exists t, fs (config_file_name :: d) = FParsed t /\ de_config t = Rok l).
    { intro l. unfold config_from_file. destruct (fs (config_file_name :: d)); split; intro K; try discriminate.
      1,2: destruct K as [t' [K1 K2]]; discriminate.
      - exists t. auto.
      - destruct K as [t' [K1 K2]]. congruence. }
    conjs.
    + split; intro K.
      * destruct (config_from_file fs (config_file_name :: d)); discriminate.
      * exfalso. apply (K d); eauto.
    + intros p l. split; intro K.
      * destruct (config_from_file fs (config_file_name :: d)) as [l'|] eqn:E; [|discriminate]. cbn in K.
        inversion K; subst. destruct (proj1 (L l) eq_refl) as [t [E1 E2]]. exists d, t. auto.
      * destruct K as (dir & t & K1 & -> & K2 & K3).
        assert (dir = d) by (eapply nearest_unique; eauto). subst dir.
        replace (config_from_file fs (config_file_name :: d)) with (Rok l) by (symmetry; apply L; eauto). reflexivity.
    + split; intro K.
      * exists d. split; auto. intros t l E1 E2.
        replace (config_from_file fs (config_file_name :: d)) with (Rok l) in K by (symmetry; apply L; eauto). discriminate.
      * destruct K as (dir & K1 & K2). assert (dir = d) by (eapply nearest_unique; eauto). subst dir.
        destruct (config_from_file fs (config_file_name :: d)) as [l|] eqn:E; auto.
        destruct (proj1 (L l) eq_refl) as [t [E1 E2]]. exfalso. eapply K2; eauto.
Qed.
Print Assumptions C17_discover.
Definition ex_fs2 : filesystem := fun p =>
  if list_eq_dec (list_eq_dec N.eq_dec) p [config_file_name; lit "a"] then FParsed [(lit "line_width", TInt 20)]
  else if list_eq_dec (list_eq_dec N.eq_dec) p [config_file_name] then FParsed [(lit "line_width", TInt 30)]
  else FAbsent.
Example C17_example : exists l,
  discover_project_config ex_fs2 [lit "c"; lit "b"; lit "a"] = Rok (Some ([config_file_name; lit "a"], l))
  /\ l_line_width l = Some 20.
Proof. eexists. split; vm_compute; reflexivity. Qed.
Example C17_discover_example : exists c,
  discover ex_fs2 [lit "b"] = Rok (Some ([config_file_name], c)) /\ c_line_width c = 30
  /\ discover (fun _ => FAbsent) [lit "b"] = Rok None.
Proof. eexists. repeat split; vm_compute; reflexivity. Qed.

(** ** C16 *)

Lemma tlookup_value : forall k t, tlookup k t = value_of k t.
Proof.
  intros k t. unfold value_of. induction t as [|[k' v] t IH]; [reflexivity|]. cbn [tlookup find fst]. destruct (seqb k k'); [reflexivity|exact IH].
Qed.

(** [effective fs k paths]: what the first of [paths] whose file sets [k] says. *)
Definition file_sets (fs : filesystem) (k : string) (p : path) : option toml :=
  match fs p with FParsed t => value_of (lit k) t | _ => None end.
Fixpoint effective (fs : filesystem) (k : string) (paths : list path) : option toml :=
  match paths with
  | [] => None
  | p :: ps => match file_sets fs k p with Some v => Some v | None => effective fs k ps end
  end.
Definition setting {A} (fs : filesystem) (paths : list path) (k : string)
  (dec : toml -> result A) (dflt val : A) : Prop :=
  match effective fs k paths with Some v => dec v = Rok val | None => val = dflt end.
(** Files from highest to lowest priority. *)
Definition user_paths (d : UserDirs) : list path :=
  match config_dir d with Some c => [lit "config.toml" :: lit "hongdown" :: c] | None => [] end
  ++ match home_dir d with Some h => [lit ".hongdown.toml" :: h] | None => [] end
  ++ [[lit "config.toml"; lit "hongdown"; lit "etc"]].
Definition cascade_paths (fs : filesystem) (d : UserDirs) (proj : option path) : list path :=
  match proj with
  | None => user_paths d
  | Some p => match file_sets fs "no_inherit" p with
              | Some (TBool true) => [p]
              | _ => p :: user_paths d
              end
  end.

(** [reads fs paths ls]: [ls] are the layers of the existing files of [paths]. *)
Inductive reads (fs : filesystem) : list path -> list ConfigLayer -> Prop :=
| reads_nil : reads fs [] []
| reads_skip : forall p ps ls, fs p = FAbsent -> reads fs ps ls -> reads fs (p :: ps) ls
| reads_cons : forall p ps t l ls, fs p = FParsed t -> de_layer t = Rok l -> reads fs ps ls -> reads fs (p :: ps) (l :: ls).

Lemma try_load_spec : forall fs p o, try_load_layer fs p = Rok o ->
  (o = None /\ fs p = FAbsent) \/ exists t l, o = Some l /\ fs p = FParsed t /\ de_layer t = Rok l.
Proof.
  intros fs p o H. unfold try_load_layer, exists_file, layer_from_file in H. destruct (fs p) eqn:E; cbn in H.
  - inversion H; auto.
  - discriminate.
  - destruct (de_layer t) eqn:D; [|discriminate]. cbn in H. inversion H; subst. right. eauto.
Qed.

Lemma reads_setting : forall A fs k (dec : toml -> result A) (lf : ConfigLayer -> option A) dflt,
  (forall t l, de_layer t = Rok l -> ofield t k dec = Rok (lf l)) ->
  forall ps ls, reads fs ps ls -> setting fs ps k dec dflt (first_some (map lf ls) dflt).
Proof.
  intros A fs k dec lf dflt H ps ls R. unfold setting. induction R as [|p ps ls E R IH|p ps t l ls E D R IH]; cbn; auto.
  - unfold file_sets. rewrite E. exact IH.
  - unfold file_sets. rewrite E. specialize (H t l D). unfold ofield in H.
    rewrite tlookup_value in H. destruct (value_of (lit k) t) as [v|].
    + destruct (dec v) eqn:Dv; cbn in H; [|discriminate]. inversion H as [H0]. cbn. reflexivity.
    + inversion H as [H0]. cbn. exact IH.
Qed.

Ltac layer_field := clear; let t := fresh in let l := fresh in let H := fresh in intros t l H; unfold de_layer in H; inv_do; assumption.

Theorem C16_cascade_sections_partial : forall fs d cwd c proj,
  load_cascading fs d cwd = Rok (c, proj) ->
  let ps := cascade_paths fs d proj in
  setting fs ps "line_width" de_line_width 80 (c_line_width c)
  /\ setting fs ps "include" de_strs [] (c_include c)
  /\ setting fs ps "exclude" de_strs [] (c_exclude c)
  /\ setting fs ps "git_aware" de_bool true (c_git_aware c)
  /\ setting fs ps "heading" (de_table de_heading) default_heading (c_heading c)
  /\ setting fs ps "unordered_list" (de_table de_ul) default_ul (c_ul c)
  /\ setting fs ps "ordered_list" (de_table de_ol) default_ol (c_ol c)
  /\ setting fs ps "code_block" (de_table de_cb) default_cb (c_cb c)
  /\ setting fs ps "thematic_break" (de_table de_tb) default_tb (c_tb c)
  /\ setting fs ps "punctuation" (de_table de_pc) default_pc (c_punct c)
  /\ match proj with
     | Some p => exists dir, nearest_config fs cwd dir /\ p = lit ".hongdown.toml" :: dir
     | None => forall dir, (exists pre, cwd = pre ++ dir) -> ~ has_config fs dir
     end.
Proof.
  intros fs d cwd c proj H ps.
  assert (exists ls, reads fs ps ls /\ c = fold_left (fun c l => merge_over l c) (rev ls) default_config
     /\ match proj with
     | Some p => exists dir, nearest_config fs cwd dir /\ p = lit ".hongdown.toml" :: dir
     | None => forall dir, (exists pre, cwd = pre ++ dir) -> ~ has_config fs dir
     end) as [ls [R [E P]]].
  { unfold load_cascading in H.
    apply rbind_ok in H; destruct H as [sys [E1 H]].
    apply rbind_ok in H; destruct H as [leg [E2 H]].
    apply rbind_ok in H; destruct H as [xdg [E3 H]].
    apply rbind_ok in H; destruct H as [pr [E4 H]].
    assert (R : reads fs (user_paths d) (rev (opush (opush (opush [] sys) leg) xdg))).
    { assert (RS : reads fs [[lit "config.toml"; lit "hongdown"; lit "etc"]] (rev (opush [] sys))).
      { unfold load_system_config in E1. apply try_load_spec in E1.
        destruct E1 as [[-> E1]|(t & l & -> & E1 & D)]; cbn.
        - apply reads_skip; [exact E1|constructor].
        - eapply reads_cons; [exact E1|exact D|constructor]. }
      assert (RL : reads fs (match home_dir d with Some h => [lit ".hongdown.toml" :: h] | None => [] end
                     ++ [[lit "config.toml"; lit "hongdown"; lit "etc"]]) (rev (opush (opush [] sys) leg))).
      { unfold load_user_legacy_config in E2. destruct (home_dir d) as [h|].
        - apply try_load_spec in E2. destruct E2 as [[-> E2]|(t & l & -> & E2 & D)].
          + apply reads_skip; [exact E2|exact RS].
          + cbn [opush]. rewrite rev_app_distr. eapply reads_cons; [exact E2|exact D|exact RS].
        - inversion E2; subst. exact RS. }
      unfold user_paths. unfold load_user_xdg_config in E3. destruct (config_dir d) as [h|].
      - apply try_load_spec in E3. destruct E3 as [[-> E3]|(t & l & -> & E3 & D)].
        + apply reads_skip; [exact E3|exact RL].
        + cbn [opush]. rewrite rev_app_distr. eapply reads_cons; [exact E3|exact D|exact RL].
      - inversion E3; subst. exact RL. }
    set (ul := opush (opush (opush [] sys) leg) xdg) in *.
    pose proof (C17_nearest_ancestor fs cwd) as (N1 & N2 & _).
    destruct pr as [[p l]|].
    - inversion H; subst. apply N2 in E4. destruct E4 as (dir & t & K1 & K2 & K3 & K4).
      exists (rev ((if l_no_inherit l then [] else ul) ++ [l])). rewrite rev_involutive. split; [|split; [auto|eauto]].
      subst ps. unfold cascade_paths, file_sets. rewrite K3.
      assert (NI : field t "no_inherit" de_bool false = Rok (l_no_inherit l)).
      { clear -K4. unfold de_layer in K4. inv_do. assumption. }
      unfold field in NI. rewrite tlookup_value in NI. rewrite rev_app_distr. cbn [rev app].
      destruct (value_of (lit "no_inherit") t) as [[| | b | | |]|]; try discriminate.
      + cbn in NI. injection NI as NI. rewrite <- NI. destruct b.
        * eapply reads_cons; [exact K3|exact K4|constructor].
        * eapply reads_cons; [exact K3|exact K4|exact R].
      + injection NI as NI. rewrite <- NI. eapply reads_cons; [exact K3|exact K4|exact R].
    - inversion H; subst. exists (rev ul). rewrite rev_involutive. split; [exact R|]. split; auto.
      apply N1. exact E4. }
  subst c.
  pose proof (fun A lf cf Hf => fold_merge_field A lf cf Hf (rev ls) default_config) as FM.
  rewrite rev_involutive in FM.
  conjs; [..|exact P].
  - rewrite (FM _ l_line_width c_line_width) by reflexivity. eapply reads_setting; [|exact R]. layer_field.
  - rewrite (FM _ l_include c_include) by reflexivity. eapply reads_setting; [|exact R]. layer_field.
  - rewrite (FM _ l_exclude c_exclude) by reflexivity. eapply reads_setting; [|exact R]. layer_field.
  - rewrite (FM _ l_git_aware c_git_aware) by reflexivity. eapply reads_setting; [|exact R]. layer_field.
  - rewrite (FM _ l_heading c_heading) by reflexivity. eapply reads_setting; [|exact R]. layer_field.
  - rewrite (FM _ l_ul c_ul) by reflexivity. eapply reads_setting; [|exact R]. layer_field.
  - rewrite (FM _ l_ol c_ol) by reflexivity. eapply reads_setting; [|exact R]. layer_field.
  - rewrite (FM _ l_cb c_cb) by reflexivity. eapply reads_setting; [|exact R]. layer_field.
  - rewrite (FM _ l_tb c_tb) by reflexivity. eapply reads_setting; [|exact R]. layer_field.
  - rewrite (FM _ l_punct c_punct) by reflexivity. eapply reads_setting; [|exact R]. layer_field.
Qed.
Print Assumptions C16_cascade_sections_partial.
Definition ex_fs3 : filesystem := fun p =>
  if list_eq_dec (list_eq_dec N.eq_dec) p [config_file_name; lit "a"]
  then FParsed [(lit "heading", TTab [(lit "sentence_case", TBool true)])]
  else if list_eq_dec (list_eq_dec N.eq_dec) p system_config_path
  then FParsed [(lit "line_width", TInt 30); (lit "heading", TTab [(lit "setext_h1", TBool false)])]
  else FAbsent.
Example C16_example : exists c,
  load_cascading ex_fs3 (mkDirs None None) [lit "a"] = Rok (c, Some [config_file_name; lit "a"])
  /\ c_line_width c = 30 /\ hc_sentence_case (c_heading c) = true.
Proof. eexists. repeat split; vm_compute; reflexivity. Qed.

(** An explicit [--config] file: nothing else on disk and no user directory matters. *)
Theorem C16_explicit_config_bypasses : forall fs fs' d d' cwd p,
  fs p = fs' p -> load_config fs d cwd (Some p) = load_config fs' d' cwd (Some p).
Proof. intros. unfold load_config, config_from_file. rewrite H. reflexivity. Qed.
Print Assumptions C16_explicit_config_bypasses.

(** Inside a section the claim fails: the project's [heading] section, which
    does not mention [setext_h1], resets it to the built-in default although
    the system file sets it. *)
Theorem C16_nested_setting_refuted : exists fs d cwd c psec ssec,
  load_cascading fs d cwd = Rok (c, Some [lit ".hongdown.toml"; lit "a"])
  /\ file_sets fs "heading" [lit ".hongdown.toml"; lit "a"] = Some (TTab psec)
  /\ value_of (lit "setext_h1") psec = None
  /\ file_sets fs "heading" [lit "config.toml"; lit "hongdown"; lit "etc"] = Some (TTab ssec)
  /\ value_of (lit "setext_h1") ssec = Some (TBool false)
  /\ hc_setext_h1 (c_heading c) = true.
Proof. exists ex_fs3, (mkDirs None None), [lit "a"]. do 3 eexists. repeat split; vm_compute; reflexivity. Qed.
Print Assumptions C16_nested_setting_refuted.

(** One unreadable file anywhere in the cascade discards every other file. *)
Theorem C16_broken_file_discards_project_refuted : exists fs d cwd t,
  fs [lit ".hongdown.toml"; lit "a"] = FParsed t /\ value_of (lit "line_width") t = Some (TInt 30)
  /\ cwd = [lit "a"] /\ c_line_width (fst (load_config fs d cwd None)) = 80.
Proof.
  exists (fun p => if list_eq_dec (list_eq_dec N.eq_dec) p [config_file_name; lit "a"]
                   then FParsed [(lit "line_width", TInt 30)]
                   else if list_eq_dec (list_eq_dec N.eq_dec) p system_config_path then FBroken else FAbsent),
    (mkDirs None None), [lit "a"]. eexists. repeat split; vm_compute; reflexivity.
Qed.
Print Assumptions C16_broken_file_discards_project_refuted.

(** ** C16, down to the single setting

    [key_of look sec key dec dflt v]: [v] is what key [key] of section [sec]
    says, or the default if the section or the key is missing. *)
Definition key_of {A} (look : string -> option toml) (sec key : string)
  (dec : toml -> result A) (dflt v : A) : Prop :=
  match look sec with
  | None => v = dflt
  | Some (TTab s) => match value_of (lit key) s with Some x => dec x = Rok v | None => v = dflt end
  | Some _ => False
  end.
Definition options_from (look : string -> option toml) (o : Options) : Prop :=
  match look "line_width"%string with Some v => de_line_width v = Rok (line_width o) | None => line_width o = 80 end
  /\ key_of look "heading" "setext_h1" de_bool true (setext_h1 o)
  /\ key_of look "heading" "setext_h2" de_bool true (setext_h2 o)
  /\ key_of look "heading" "sentence_case" de_bool false (heading_sentence_case o)
  /\ key_of look "heading" "proper_nouns" de_strs [] (heading_proper_nouns o)
  /\ key_of look "heading" "common_nouns" de_strs [] (heading_common_nouns o)
  /\ key_of look "unordered_list" "unordered_marker" de_unordered_marker UHyphen (unordered_marker o)
  /\ key_of look "unordered_list" "leading_spaces" de_leading 1 (leading_spaces o)
  /\ key_of look "unordered_list" "trailing_spaces" de_trailing 2 (trailing_spaces o)
  /\ key_of look "unordered_list" "indent_width" de_indent 4 (indent_width o)
  /\ key_of look "ordered_list" "odd_level_marker" de_ordered_marker OPeriod (odd_level_marker o)
  /\ key_of look "ordered_list" "even_level_marker" de_ordered_marker OParenthesis (even_level_marker o)
  /\ key_of look "ordered_list" "pad" de_pad PadStart (ordered_list_pad o)
  /\ key_of look "ordered_list" "indent_width" de_indent 4 (ordered_list_indent_width o)
  /\ key_of look "code_block" "fence_char" de_fence_char FTilde (fence_char o)
  /\ key_of look "code_block" "min_fence_length" de_min_fence 4 (min_fence_length o)
  /\ key_of look "code_block" "space_after_fence" de_bool true (space_after_fence o)
  /\ key_of look "code_block" "default_language" de_str [] (default_language o)
  /\ key_of look "code_block" "formatters" de_formatters []
       (map (fun e => (fst e, (cf_command (snd e), cf_timeout (snd e)))) (code_formatters o))
  /\ key_of look "thematic_break" "style" de_tb_style documented_rule (thematic_break_style o)
  /\ key_of look "thematic_break" "leading_spaces" de_leading 3 (thematic_break_leading_spaces o)
  /\ key_of look "punctuation" "curly_double_quotes" de_bool true (curly_double_quotes o)
  /\ key_of look "punctuation" "curly_single_quotes" de_bool true (curly_single_quotes o)
  /\ key_of look "punctuation" "curly_apostrophes" de_bool false (curly_apostrophes o)
  /\ key_of look "punctuation" "ellipsis" de_bool true (ellipsis o)
  /\ key_of look "punctuation" "en_dash" de_dash DDisabled (en_dash o)
  /\ key_of look "punctuation" "em_dash" de_dash (DPattern (lit "--")) (em_dash o).

(** What the values of the settings say (README.md 205-254), for all of TOML: a
    value means a setting exactly if it is listed here. *)
Definition number_from (low : nat) (high : option nat) (v : toml) (n : nat) : Prop :=
  v = TInt (Z.of_nat n) /\ low <= n /\ match high with Some h => n <= h | None => True end.
Definition one_of {A} (l : list (str * A)) (v : toml) (x : A) : Prop := exists s, v = TStr s /\ In (s, x) l.
Definition dash_value (v : toml) (x : DashSetting) : Prop :=
  v = TBool false /\ x = DDisabled
  \/ exists p, v = TStr p /\ p <> [] /\ printable_ascii_no_space p /\ x = DPattern p.
Definition formatter_value (v : toml) (x : list str * N) : Prop :=
  v = TArr (map TStr (fst x)) /\ snd x = 5%N
  \/ exists t, v = TTab t /\ value_of (lit "command") t = Some (TArr (map TStr (fst x)))
       /\ match value_of (lit "timeout") t with None => snd x = 5%N | Some w => w = TInt (Z.of_N (snd x)) end.
Definition formatters_value (v : toml) (l : list (str * (list str * N))) : Prop :=
  exists t, v = TTab t /\ Forall2 (fun a b => fst a = fst b /\ formatter_value (snd a) (snd b)) t l.

Lemma usize_iff : forall v n, de_usize v = Rok n <-> v = TInt (Z.of_nat n).
Proof.
  intros v n. destruct v as [z| | | | |]; cbn; try (split; discriminate). destruct (0 <=? z)%Z eqn:E.
  - apply Z.leb_le in E. split; intro H; injection H as H; [subst n; rewrite Z2Nat.id; auto|subst z; rewrite Nat2Z.id; reflexivity].
  - apply Z.leb_gt in E. split; intro H; [discriminate|injection H as H; subst z; lia].
Qed.
Lemma u64_iff : forall v n, de_u64 v = Rok n <-> v = TInt (Z.of_N n).
Proof.
  intros v n. destruct v as [z| | | | |]; cbn; try (split; discriminate). destruct (0 <=? z)%Z eqn:E.
  - apply Z.leb_le in E. split; intro H; injection H as H; [subst n; rewrite Z2N.id; auto|subst z; rewrite N2Z.id; reflexivity].
  - apply Z.leb_gt in E. split; intro H; [discriminate|injection H as H; subst z; lia].
Qed.
Lemma number_iff : forall (new : nat -> result nat) low high, (forall v w, new v = Rok w <-> (low <= v /\ match high with Some h => v <= h | None => True end) /\ w = v) ->
  forall v n, (do k <- de_usize v; new k) = Rok n <-> number_from low high v n.
Proof.
  intros new low high H v n. unfold number_from. destruct (de_usize v) as [k|] eqn:E; cbn [rbind].
  - apply usize_iff in E. subst v. rewrite H. split.
    + intros [R ->]. auto.
    + intros (Q & R). injection Q as Q. apply Nat2Z.inj in Q. subst n. auto.
  - split; [discriminate|]. intros (-> & _). assert (de_usize (TInt (Z.of_nat n)) = Rok n) by (apply usize_iff; reflexivity). congruence.
Qed.
Lemma strs_iff : forall v l, de_strs v = Rok l <-> v = TArr (map TStr l).
Proof.
  intros v l. destruct v as [| | |a| |]; cbn [de_strs]; try (split; discriminate).
  revert l. induction a as [|x a IH]; intros l; cbn [de_list].
  - split; intro H; [injection H as <-; reflexivity|destruct l; [reflexivity|discriminate]].
  - destruct x as [|s| | | |]; cbn [de_str rbind]; try (split; [discriminate|destruct l; discriminate]).
    destruct (de_list de_str a) as [r|] eqn:E; cbn [rbind].
    + split; intro H.
      * injection H as <-. cbn [map]. assert (Q : TArr a = TArr (map TStr r)) by (apply IH; reflexivity). injection Q as ->. reflexivity.
      * destruct l as [|y l]; [discriminate|]. injection H as -> ->. assert (Q : Rok r = Rok l) by (apply IH; reflexivity). injection Q as ->. reflexivity.
    + split; [discriminate|]. intro H. destruct l as [|y l]; [discriminate|]. injection H as -> ->. assert (Q : @Rerr (list str) = Rok l) by (apply IH; reflexivity). discriminate.
Qed.
Lemma formatter_iff : forall v x, de_formatter v = Rok x <-> formatter_value v x.
Proof.
  intros v [c tm]. unfold formatter_value. cbn [fst snd]. destruct v as [z|s|b|l|t|]; cbn [de_formatter].
  1,2,3,6: split; [discriminate|intros [(H & _)|(t & H & _)]; discriminate].
  - pose proof (strs_iff (TArr l)) as S. cbn [de_strs] in S. destruct (de_list de_str l) as [r|]; cbn [rbind].
    + assert (Q : TArr l = TArr (map TStr r)) by (apply S; reflexivity). injection Q as ->. split.
      * intro H. injection H as <- <-. left. auto.
      * intros [(H & ->)|(t & H & _)]; [|discriminate]. assert (Q : Rok r = Rok c) by (apply S; exact H). injection Q as ->. reflexivity.
    + split; [discriminate|]. intros [(H & _)|(t & H & _)]; [|discriminate]. apply S in H. discriminate.
  - rewrite tlookup_value. destruct (value_of (lit "command") t) as [cv|] eqn:E.
    + destruct (de_strs cv) as [r|] eqn:D; cbn [rbind].
      * apply strs_iff in D. subst cv. unfold field. rewrite tlookup_value. destruct (value_of (lit "timeout") t) as [w|] eqn:T.
        -- destruct (de_u64 w) as [k|] eqn:W; cbn [rbind].
           ++ apply u64_iff in W. subst w. split.
              ** intro H. injection H as <- <-. right. exists t. rewrite E, T. auto.
              ** intros [(H & _)|(t' & H & C & K)]; [discriminate|]. injection H as <-. rewrite E in C. rewrite T in K.
                 apply (f_equal (fun o => match o with Some v => de_strs v | None => Rerr end)) in C.
                 rewrite !(proj2 (strs_iff _ _) eq_refl) in C. injection C as ->. injection K as K. apply N2Z.inj in K. subst. reflexivity.
           ++ split; [discriminate|]. intros [(H & _)|(t' & H & C & K)]; [discriminate|]. injection H as <-. rewrite T in K. subst w.
              rewrite (proj2 (u64_iff _ _) eq_refl) in W. discriminate.
        -- cbn [rbind]. split.
           ++ intro H. injection H as <- <-. right. exists t. rewrite E, T. auto.
           ++ intros [(H & _)|(t' & H & C & K)]; [discriminate|]. injection H as <-. rewrite E in C. rewrite T in K. subst tm.
              apply (f_equal (fun o => match o with Some v => de_strs v | None => Rerr end)) in C.
              rewrite !(proj2 (strs_iff _ _) eq_refl) in C. injection C as ->. reflexivity.
      * split; [discriminate|]. intros [(H & _)|(t' & H & C & K)]; [discriminate|]. injection H as <-. rewrite E in C. injection C as ->.
        rewrite (proj2 (strs_iff _ _) eq_refl) in D. discriminate.
    + split; [discriminate|]. intros [(H & _)|(t' & H & C & K)]; [discriminate|]. injection H as <-. congruence.
Qed.
Lemma formatters_iff : forall v l, de_formatters v = Rok l <-> formatters_value v l.
Proof.
  intros v l. unfold formatters_value. destruct v as [| | | |t|]; cbn [de_formatters];
    try (split; [discriminate|intros (t & H & _); discriminate]).
  revert l. induction t as [|[k v] t IH]; intro l; cbn [de_formatters_tab].
  - split; [intro H; injection H as <-; exists []; auto|]. intros (t & H & F). injection H as <-. inversion F. reflexivity.
  - destruct (de_formatter v) as [f|] eqn:E; cbn [rbind].
    + apply formatter_iff in E. destruct (de_formatters_tab t) as [r|] eqn:R; cbn [rbind].
      * split.
        -- intro H. injection H as <-. exists ((k, v) :: t). split; [reflexivity|].
           destruct (proj1 (IH r) eq_refl) as (t' & H & F). injection H as <-. constructor; auto.
        -- intros (t' & H & F). injection H as <-. inversion F as [|a b la lb [A B] F' Ea Eb]; subst.
           destruct b as [k' f']. cbn [fst snd] in A, B. subst k'. apply formatter_iff in B, E. rewrite E in B. injection B as ->.
           assert (Q : Rok r = Rok lb) by (apply IH; eauto). injection Q as ->. reflexivity.
      * split; [discriminate|]. intros (t' & H & F). injection H as <-. inversion F as [|a b la lb [A B] F' Ea Eb]; subst.
        assert (Q : @Rerr (list (str * FormatterConfig)) = Rok lb) by (apply IH; eauto). discriminate.
    + split; [discriminate|]. intros (t' & H & F). injection H as <-. inversion F as [|a b la lb [A B] F' Ea Eb]; subst.
      apply formatter_iff in B. cbn [snd] in B. congruence.
Qed.
Theorem C14_values_exact :
  (forall v n, de_line_width v = Rok n <-> number_from 8 None v n)
  /\ (forall v n, de_leading v = Rok n <-> number_from 0 (Some 3) v n)
  /\ (forall v n, de_trailing v = Rok n <-> number_from 0 (Some 3) v n)
  /\ (forall v n, de_indent v = Rok n <-> number_from 1 None v n)
  /\ (forall v n, de_min_fence v = Rok n <-> number_from 3 None v n)
  /\ (forall v b, de_bool v = Rok b <-> v = TBool b)
  /\ (forall v s, de_str v = Rok s <-> v = TStr s)
  /\ (forall v l, de_strs v = Rok l <-> v = TArr (map TStr l))
  /\ (forall v m, de_unordered_marker v = Rok m <-> one_of [(lit "-", UHyphen); (lit "*", UAsterisk); (lit "+", UPlus)] v m)
  /\ (forall v m, de_ordered_marker v = Rok m <-> one_of [(lit ".", OPeriod); (lit ")", OParenthesis)] v m)
  /\ (forall v m, de_pad v = Rok m <-> one_of [(lit "start", PadStart); (lit "end", PadEnd)] v m)
  /\ (forall v m, de_fence_char v = Rok m <-> one_of [(lit "~", FTilde); (lit "`", FBacktick)] v m)
  /\ (forall v x, de_dash v = Rok x <-> dash_value v x)
  /\ (forall v x, de_formatters v = Rok x <-> formatters_value v x).
Proof.
  split; [apply number_iff; intros; rewrite line_width_ok; tauto|].
  split; [apply number_iff; intros; rewrite leading_ok; split; intros [A B]; split; auto; [split; auto; lia|tauto]|].
  split; [apply number_iff; intros; rewrite trailing_ok; split; intros [A B]; split; auto; [split; auto; lia|tauto]|].
  split; [apply number_iff; intros; rewrite indent_ok; tauto|].
  split; [apply number_iff; intros; rewrite min_fence_ok; tauto|].
  split; [intros [| |b'| | |] b; cbn; split; intro H; try discriminate; injection H as ->; reflexivity|].
  split; [intros [|s'| | | |] s; cbn; split; intro H; try discriminate; injection H as ->; reflexivity|].
  split; [exact strs_iff|].
  split; [|split; [|split; [|split; [|split; [|exact formatters_iff]]]]].
  1-4: intros v m; unfold one_of; split;
    [destruct v as [|s| | | |]; try discriminate; cbn [de_unordered_marker de_ordered_marker de_pad de_fence_char de_str rbind];
     repeat (match goal with |- (if ?b then _ else _) = _ -> _ => destruct b eqn:? end; [intro H; injection H as <-; exists s; split; [reflexivity|];
       match goal with E : seqb s _ = true |- _ => apply seqb_true in E; rewrite E end; cbn [In]; auto|]); discriminate
    |intros (s & -> & I); cbn [In] in I; repeat (destruct I as [I|I]; [injection I as <- <-; vm_compute; reflexivity|]); destruct I].
  intros v x. unfold dash_value. split.
  - destruct v as [|s|[]| | |]; cbn [de_dash]; try discriminate.
    + destruct (dash_pattern_new s) as [p|] eqn:E; [|discriminate]. cbn [rbind]. intro H. injection H as <-. apply dash_pattern_ok in E.
      destruct E as [[A B] ->]. right. exists s. auto.
    + intro H. injection H as <-. auto.
  - intros [[-> ->]|(p & -> & A & B & ->)]; [reflexivity|]. cbn [de_dash]. rewrite (proj2 (dash_pattern_ok p p)); auto.
Qed.
Print Assumptions C14_values_exact.
Example C14_values_example :
  de_unordered_marker (TStr (lit "*")) = Rok UAsterisk /\ de_unordered_marker (TStr (lit "**")) = Rerr
  /\ de_line_width (TInt 100) = Rok 100 /\ de_line_width (TInt (-1)) = Rerr /\ de_dash (TBool true) = Rerr
  /\ de_formatters (TTab [(lit "js", TTab [(lit "command", TArr [TStr (lit "deno")]); (lit "timeout", TInt 9)])]) = Rok [(lit "js", ([lit "deno"], 9%N))].
Proof. repeat split; vm_compute; reflexivity. Qed.

Definition section_of {A} (look : string -> option toml) (sec : string) (de : table -> result A) (dflt v : A) : Prop :=
  match look sec with Some x => de_table de x = Rok v | None => v = dflt end.
Lemma key_of_section : forall A B look sec key (de : table -> result A) dflt a dec (d : B) (proj : A -> B),
  section_of look sec de dflt a -> proj dflt = d ->
  (forall t a, de t = Rok a -> field t key dec d = Rok (proj a)) ->
  key_of look sec key dec d (proj a).
Proof.
  intros A B look sec key de dflt a dec d proj S D H. unfold section_of, key_of in *.
  destruct (look sec) as [v|]; [|congruence]. destruct v as [| | | |t|]; try discriminate. cbn in S.
  apply H in S. unfold field in S. rewrite tlookup_value in S. destruct (value_of (lit key) t); auto. inversion S. reflexivity.
Qed.
Ltac ftac := let t := fresh "t" in let a := fresh "a" in let H := fresh "H" in
  intros t a H; unfold de_heading, de_ul, de_ol, de_cb, de_tb, de_pc in H;
  repeat (let x := fresh "x" in let E := fresh "E" in apply rbind_ok in H; destruct H as (x & E & H));
  inversion H; subst; assumption.
Lemma options_from_config : forall look c o,
  match look "line_width"%string with Some v => de_line_width v = Rok (c_line_width c) | None => c_line_width c = 80 end ->
  section_of look "heading" de_heading default_heading (c_heading c) ->
  section_of look "unordered_list" de_ul default_ul (c_ul c) ->
  section_of look "ordered_list" de_ol default_ol (c_ol c) ->
  section_of look "code_block" de_cb default_cb (c_cb c) ->
  section_of look "thematic_break" de_tb default_tb (c_tb c) ->
  section_of look "punctuation" de_pc default_pc (c_punct c) ->
  cli_options c None = SetupOk o -> options_from look o.
Proof.
  intros look c o H1 H2 H3 H4 H5 H6 H7 H. unfold cli_options, build_options in H.
  match type of H with context [validate_dash_settings ?x] => set (o1 := x) in H end.
  destruct (forallb _ _); [|discriminate]. destruct (validate_dash_settings o1); inversion H; subst o.
  unfold options_from, o1. clear H o1.
  cbn [line_width setext_h1 setext_h2 heading_sentence_case heading_proper_nouns heading_common_nouns unordered_marker
       leading_spaces trailing_spaces indent_width odd_level_marker even_level_marker ordered_list_pad
       ordered_list_indent_width fence_char min_fence_length space_after_fence default_language
       thematic_break_style thematic_break_leading_spaces curly_double_quotes curly_single_quotes curly_apostrophes
       ellipsis en_dash em_dash code_formatters].
  split; [exact H1|].
  split; [apply (key_of_section _ _ _ _ _ _ _ _ _ _ hc_setext_h1 H2); [reflexivity|ftac]|].
  split; [apply (key_of_section _ _ _ _ _ _ _ _ _ _ hc_setext_h2 H2); [reflexivity|ftac]|].
  split; [apply (key_of_section _ _ _ _ _ _ _ _ _ _ hc_sentence_case H2); [reflexivity|ftac]|].
  split; [apply (key_of_section _ _ _ _ _ _ _ _ _ _ hc_proper_nouns H2); [reflexivity|ftac]|].
  split; [apply (key_of_section _ _ _ _ _ _ _ _ _ _ hc_common_nouns H2); [reflexivity|ftac]|].
  split; [apply (key_of_section _ _ _ _ _ _ _ _ _ _ ul_marker H3); [reflexivity|ftac]|].
  split; [apply (key_of_section _ _ _ _ _ _ _ _ _ _ ul_leading H3); [reflexivity|ftac]|].
  split; [apply (key_of_section _ _ _ _ _ _ _ _ _ _ ul_trailing H3); [reflexivity|ftac]|].
  split; [apply (key_of_section _ _ _ _ _ _ _ _ _ _ ul_indent H3); [reflexivity|ftac]|].
  split; [apply (key_of_section _ _ _ _ _ _ _ _ _ _ ol_odd H4); [reflexivity|ftac]|].
  split; [apply (key_of_section _ _ _ _ _ _ _ _ _ _ ol_even H4); [reflexivity|ftac]|].
  split; [apply (key_of_section _ _ _ _ _ _ _ _ _ _ ol_pad H4); [reflexivity|ftac]|].
  split; [apply (key_of_section _ _ _ _ _ _ _ _ _ _ ol_indent H4); [reflexivity|ftac]|].
  split; [apply (key_of_section _ _ _ _ _ _ _ _ _ _ cb_fence_char H5); [reflexivity|ftac]|].
  split; [apply (key_of_section _ _ _ _ _ _ _ _ _ _ cb_min_fence H5); [reflexivity|ftac]|].
  split; [apply (key_of_section _ _ _ _ _ _ _ _ _ _ cb_space H5); [reflexivity|ftac]|].
  split; [apply (key_of_section _ _ _ _ _ _ _ _ _ _ cb_lang H5); [reflexivity|ftac]|].
  split.
  { rewrite map_map. cbn [fst snd cf_command cf_timeout].
    match goal with |- key_of _ _ _ _ _ (map ?f ?l) => replace (map f l) with l end.
    - apply (key_of_section _ _ _ _ _ _ _ _ _ _ cb_formatters H5); [reflexivity|ftac].
    - symmetry. rewrite <- map_id. apply map_ext. intros [k [x y]]. reflexivity. }
  split; [apply (key_of_section _ _ _ _ _ _ _ _ _ _ tb_style H6); [reflexivity|ftac]|].
  split; [apply (key_of_section _ _ _ _ _ _ _ _ _ _ tb_leading H6); [reflexivity|ftac]|].
  split; [apply (key_of_section _ _ _ _ _ _ _ _ _ _ pc_dq H7); [reflexivity|ftac]|].
  split; [apply (key_of_section _ _ _ _ _ _ _ _ _ _ pc_sq H7); [reflexivity|ftac]|].
  split; [apply (key_of_section _ _ _ _ _ _ _ _ _ _ pc_ap H7); [reflexivity|ftac]|].
  split; [apply (key_of_section _ _ _ _ _ _ _ _ _ _ pc_ell H7); [reflexivity|ftac]|].
  split; [apply (key_of_section _ _ _ _ _ _ _ _ _ _ pc_en H7); [reflexivity|ftac]|].
  apply (key_of_section _ _ _ _ _ _ _ _ _ _ pc_em H7); [reflexivity|ftac].
Qed.

(** With [--config], every option the program formats with is what the file
    says (defaults for what it does not mention). *)
Theorem C16_explicit_file_settings : forall fs d cwd p t o,
  fs p = FParsed t -> de_config t <> Rerr ->
  cli_options (fst (load_config fs d cwd (Some p))) None = SetupOk o ->
  options_from (fun k => value_of (lit k) t) o.
Proof.
  intros fs d cwd p t o Hp Hd H. unfold load_config, config_from_file in H. rewrite Hp in H.
  destruct (de_config t) as [c|] eqn:D; [|congruence]. cbn [fst] in H. clear Hd.
  unfold de_config in D.
  repeat (let x := fresh "x" in let E := fresh "E" in apply rbind_ok in D; destruct D as (x & E & D)).
  inversion D; subst c. clear D. unfold field in *. rewrite !tlookup_value in *.
  eapply options_from_config; [| | | | | | |exact H]; unfold section_of;
    cbn [c_line_width c_heading c_ul c_ol c_cb c_tb c_punct]; match goal with
    | |- match value_of ?k t with _ => _ end => destruct (value_of k t); [assumption|congruence] end.
Qed.
Print Assumptions C16_explicit_file_settings.
(** In the cascade each section comes from the highest-priority file that has
    it; the options are what that section says. *)
Theorem C16_cascade_settings : forall fs d cwd c proj o,
  load_cascading fs d cwd = Rok (c, proj) -> cli_options c None = SetupOk o ->
  options_from (fun k => effective fs k (cascade_paths fs d proj)) o.
Proof.
  intros fs d cwd c proj o L H.
  destruct (C16_cascade_sections_partial fs d cwd c proj L) as (K1 & _ & _ & _ & K5 & K6 & K7 & K8 & K9 & K10 & _).
  eapply options_from_config; [exact K1|exact K5|exact K6|exact K7|exact K8|exact K9|exact K10|exact H].
Qed.
Print Assumptions C16_cascade_settings.
Example C16_settings_example : exists c o,
  load_cascading ex_fs3 (mkDirs None None) [lit "a"] = Rok (c, Some [config_file_name; lit "a"])
  /\ cli_options c None = SetupOk o /\ line_width o = 30 /\ heading_sentence_case o = true /\ setext_h1 o = true.
Proof. do 2 eexists. repeat split; vm_compute; reflexivity. Qed.

(** ** C34 *)

Definition given_or {A} (v : option A) (ok : A -> Prop) (dflt res : A) : Prop :=
  (forall x, v = Some x -> ok x -> res = x) /\ (forall x, v = Some x -> ~ ok x -> res = dflt) /\ (v = None -> res = dflt).
Lemma jnew_given : forall A (new : A -> result A) (ok : A -> Prop) v d,
  (forall x w, new x = Rok w <-> ok x /\ w = x) -> given_or v ok d (jnew new v d).
Proof.
  intros A new ok v d H. repeat split; intros; subst; cbn; auto.
  - replace (new x) with (Rok x) by (symmetry; apply H; auto). reflexivity.
  - destruct (new x) eqn:E; auto. apply H in E. tauto.
Qed.
Lemma oset_given : forall A (v : option A) d, given_or v (fun _ => True) d (oset v d).
Proof. intros. repeat split; intros; subst; cbn; auto. tauto. Qed.

(** Whatever is passed, the options are in range; values in range are used as
    given; missing and out-of-range ones give the documented defaults.  Missing
    for the full claim: an invalid em dash pattern (refuted below). *)
Theorem C34_js_options_partial : forall j : JsOptions,
  let o := to_options j in
  options_in_range o
  /\ given_or (j_line_width j) (fun n => 8 <= n) 80 (line_width o)
  /\ given_or (j_leading_spaces j) (fun n => n <= 3) 1 (leading_spaces o)
  /\ given_or (j_trailing_spaces j) (fun n => n <= 3) 2 (trailing_spaces o)
  /\ given_or (j_indent_width j) (fun n => 1 <= n) 4 (indent_width o)
  /\ given_or (j_ordered_list_indent_width j) (fun n => 1 <= n) 4 (ordered_list_indent_width o)
  /\ given_or (j_min_fence_length j) (fun n => 3 <= n) 4 (min_fence_length o)
  /\ given_or (j_thematic_break_leading_spaces j) (fun n => n <= 3) 3 (thematic_break_leading_spaces o)
  /\ given_or (j_setext_h1 j) (fun _ => True) true (setext_h1 o)
  /\ given_or (j_setext_h2 j) (fun _ => True) true (setext_h2 o)
  /\ given_or (j_sentence_case j) (fun _ => True) false (heading_sentence_case o)
  /\ given_or (j_proper_nouns j) (fun _ => True) [] (heading_proper_nouns o)
  /\ given_or (j_common_nouns j) (fun _ => True) [] (heading_common_nouns o)
  /\ given_or (j_space_after_fence j) (fun _ => True) true (space_after_fence o)
  /\ given_or (j_default_language j) (fun _ => True) [] (default_language o)
  /\ given_or (j_curly_double_quotes j) (fun _ => True) true (curly_double_quotes o)
  /\ given_or (j_curly_single_quotes j) (fun _ => True) true (curly_single_quotes o)
  /\ given_or (j_curly_apostrophes j) (fun _ => True) false (curly_apostrophes o)
  /\ given_or (j_ellipsis j) (fun _ => True) true (ellipsis o)
  /\ given_or (option_map (fun s => [s]) (j_thematic_break_style j))
       (fun s => forall x, s = [x] -> thematic_break_style_new x = Rok x)
       [documented_rule] [thematic_break_style o].
Proof.
  intros j o. split; [apply to_options_range|].
  assert (T : given_or (option_map (fun s => [s]) (j_thematic_break_style j))
       (fun s => forall x, s = [x] -> thematic_break_style_new x = Rok x)
       [default_thematic_break_style] [thematic_break_style o]).
  { subst o. cbn [to_options thematic_break_style]. destruct (j_thematic_break_style j) as [s|]; repeat split; intros; cbn in *; try congruence.
    - inversion H; subst. rewrite (H0 s eq_refl). reflexivity.
    - inversion H; subst. destruct (thematic_break_style_new s) as [w|] eqn:E; auto.
      exfalso. apply H0. intros y Hy. inversion Hy; subst. apply style_accepted in E as E'. destruct E' as [-> _]. exact E. }
  conjs; try exact T; try apply oset_given;
  apply jnew_given; auto using line_width_ok, leading_ok, trailing_ok, indent_ok, min_fence_ok.
Qed.
Print Assumptions C34_js_options_partial.

(** The enumerated and dash settings: recognised strings select their value,
    anything else the default; a dash that is [false], [true] or malformed is off. *)
Theorem C34_js_enums : forall j : JsOptions,
  let o := to_options j in
  (unordered_marker o = UAsterisk <-> j_unordered_marker j = Some (lit "*"))
  /\ (unordered_marker o = UPlus <-> j_unordered_marker j = Some (lit "+"))
  /\ (odd_level_marker o = OParenthesis <-> j_odd_level_marker j = Some (lit ")"))
  /\ (even_level_marker o = OPeriod <-> j_even_level_marker j = Some (lit "."))
  /\ (ordered_list_pad o = PadEnd <-> j_ordered_list_pad j = Some (lit "end"))
  /\ (fence_char o = FBacktick <-> j_fence_char j = Some (lit "`"))
  /\ (forall p, en_dash o = DPattern p <-> j_en_dash j = Some (JPattern p) /\ p <> [] /\ printable_ascii_no_space p)
  /\ (forall p, em_dash o = DPattern p <->
        (j_em_dash j = Some (JPattern p) /\ p <> [] /\ printable_ascii_no_space p) \/ (j_em_dash j = None /\ p = lit "--")).
Proof.
  intros j o. subst o. cbn [to_options unordered_marker odd_level_marker even_level_marker ordered_list_pad fence_char en_dash em_dash].
  assert (S : forall (s k : str), (s = k) <-> Some s = Some k) by (intros; split; congruence).
  conjs.
  - destruct (j_unordered_marker j) as [s|]; cbn [jmap]; [|split; discriminate].
    destruct (seqb s (lit "*")) eqn:E1; [apply seqb_true in E1; subst; tauto|].
    split; [destruct (seqb s (lit "+")); discriminate|]. intro H. inversion H; subst. rewrite seqb_refl in E1. discriminate.
  - destruct (j_unordered_marker j) as [s|]; cbn [jmap]; [|split; discriminate].
    destruct (seqb s (lit "*")) eqn:E1; [apply seqb_true in E1; subst; split; discriminate|].
    destruct (seqb s (lit "+")) eqn:E2; [apply seqb_true in E2; subst; tauto|].
    split; [discriminate|]. intro H. inversion H; subst. rewrite seqb_refl in E2. discriminate.
  - destruct (j_odd_level_marker j) as [s|]; cbn [jmap]; [|split; discriminate].
    destruct (seqb s (lit ")")) eqn:E1; [apply seqb_true in E1; subst; tauto|].
    split; [discriminate|]. intro H. inversion H; subst. rewrite seqb_refl in E1. discriminate.
  - destruct (j_even_level_marker j) as [s|]; cbn [jmap]; [|split; discriminate].
    destruct (seqb s (lit ".")) eqn:E1; [apply seqb_true in E1; subst; tauto|].
    split; [discriminate|]. intro H. inversion H; subst. rewrite seqb_refl in E1. discriminate.
  - destruct (j_ordered_list_pad j) as [s|]; cbn [jmap]; [|split; discriminate].
    destruct (seqb s (lit "end")) eqn:E1; [apply seqb_true in E1; subst; tauto|].
    split; [discriminate|]. intro H. inversion H; subst. rewrite seqb_refl in E1. discriminate.
  - destruct (j_fence_char j) as [s|]; cbn [jmap]; [|split; discriminate].
    destruct (seqb s (lit "`")) eqn:E1; [apply seqb_true in E1; subst; tauto|].
    split; [discriminate|]. intro H. inversion H; subst. rewrite seqb_refl in E1. discriminate.
  - intro p. destruct (j_en_dash j) as [[b|s]|]; cbn; [split; [discriminate|intros [H _]; discriminate]| |split; [discriminate|intros [H _]; discriminate]].
    destruct (dash_pattern_new s) as [w|] eqn:E.
    + apply dash_pattern_ok in E. destruct E as [[E1 E2] ->]. split; intro H; [inversion H; subst; auto|]. destruct H as [H _]. congruence.
    + split; [discriminate|]. intros (H & H1 & H2). inversion H; subst.
      assert (dash_pattern_new p = Rok p) by (apply dash_pattern_ok; auto). congruence.
  - intro p. destruct (j_em_dash j) as [[b|s]|]; cbn.
    + split; [discriminate|]. intros [[H _]|[H _]]; discriminate.
    + destruct (dash_pattern_new s) as [w|] eqn:E.
      * apply dash_pattern_ok in E. destruct E as [[E1 E2] ->]. split; intro H; [inversion H; subst; auto|].
        destruct H as [[H _]|[H _]]; congruence.
      * split; [discriminate|]. intros [(H & H1 & H2)|[H _]]; [|discriminate]. inversion H; subst.
        assert (dash_pattern_new p = Rok p) by (apply dash_pattern_ok; auto). congruence.
    + split; intro H.
      * inversion H; subst. right; auto.
      * destruct H as [[H _]|[_ ->]]; [discriminate|reflexivity].
Qed.
Print Assumptions C34_js_enums.
Definition ex_js (lw : nat) (um : str) (em : JsDashSetting) : JsOptions :=
  mkJs (Some lw) None None None None None (Some um) (Some 4) None None None None None None None None None None None None
       None None None None None (Some em).
Example C34_example : line_width (to_options (ex_js 7 (lit "+") (JDisabled true))) = 80
  /\ line_width (to_options (ex_js 9 (lit "+") (JDisabled true))) = 9
  /\ leading_spaces (to_options (ex_js 7 (lit "+") (JDisabled true))) = 1
  /\ unordered_marker (to_options (ex_js 7 (lit "+") (JDisabled true))) = UPlus.
Proof. repeat split; vm_compute; reflexivity. Qed.

(** A malformed em dash pattern does not fall back to the default "--": it
    turns the conversion off. *)
Theorem C34_invalid_em_dash_refuted : exists j s, j_em_dash j = Some (JPattern s)
  /\ dash_pattern_new s = Rerr /\ em_dash (to_options j) <> em_dash default_options.
Proof. exists (ex_js 80 (lit "-") (JPattern (lit "a b"))), (lit "a b"). repeat split; vm_compute; try reflexivity. discriminate. Qed.
Print Assumptions C34_invalid_em_dash_refuted.
