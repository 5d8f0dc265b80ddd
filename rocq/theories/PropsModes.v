(** C62: the ways of running the program agree on what is formatted. *)
From Coq Require Import Bool Arith NArith Lia String Permutation List.
From Verif Require Import Base BaseFacts CliModel SpecCli CliProof PropsCli DiffModel PropsDiff PropsRuns.
Import ListNotations.

Definition with_diff (files : list path) : args := mkArgs files false false false true.
Definition without_flags (files : list path) : args := mkArgs files false false false false.

(** Whatever the flags, the same files are processed. *)
Theorem C62_files : forall expand inc coll fl, ~ In (lit "-") fl ->
  match input_files expand inc coll (without_flags fl) with
  | None =>
      Forall (fun a => select_mode expand inc coll a = RunNothing) [without_flags fl; with_diff fl; with_check fl; with_write fl]
  | Some files =>
      select_mode expand inc coll (without_flags fl) = RunPlain files
      /\ select_mode expand inc coll (with_diff fl) = RunDiff files
      /\ select_mode expand inc coll (with_check fl) = RunParallel files false true
      /\ select_mode expand inc coll (with_write fl) = RunParallel files true false
  end.
Proof.
  intros expand inc coll fl N.
  assert (Hs : existsb (seqb (lit "-")) fl = false).
  { destruct (existsb (seqb (lit "-")) fl) eqn:E; [|reflexivity]. apply existsb_exists in E. destruct E as (x & I & E). apply seqb_true in E. subst x. contradiction. }
  unfold select_mode, input_files, stdin_requested, without_flags, with_diff, with_check, with_write. cbn [a_files a_stdin a_write a_check a_diff orb]. rewrite Hs.
  destruct fl as [|f fl]; cbn [is_nil negb andb orb]; [destruct inc; [destruct coll|]|]; repeat (constructor || split).
Qed.
Print Assumptions C62_files.

Definition content (fs : fsys) (p : path) : str := match fs p with Text s => s | _ => [] end.
Section Modes.
Variable fmt : str -> option str.
Variable hunks : str -> str -> list hunk.
Variable fs : fsys.
Variable files : list path.

Lemma in_order : forall show l,
  (Exists (unprocessable fmt fs) l -> exists fs' printed, process_in_order fmt show fs l = (fs', printed, true))
  /\ (Forall (fun p => exists s out, fs p = Text s /\ fmt s = Some out) l ->
      process_in_order fmt show fs l =
        (fs, List.concat (map (fun p => match fmt (content fs p) with Some out => show p (content fs p) out | None => [] end) l), false)).
Proof.
  intro show. induction l as [|p l [IH1 IH2]].
  - split; [intro H; inversion H|reflexivity].
  - cbn [process_in_order read_file]. split.
    + intro H. destruct (fs p) as [| |s] eqn:E; [eauto|eauto|]. destruct (fmt s) as [out|] eqn:F; [|eauto].
      apply Exists_cons in H. destruct H as [H|H]; [unfold unprocessable in H; rewrite E in H; congruence|].
      destruct (IH1 H) as (fs' & pr & ->). eauto.
    + intro H. apply Forall_cons_iff in H. destruct H as [(s & out & E & F) H]. rewrite E, F, (IH2 H). cbn [map List.concat].
      assert (Q : content fs p = s) by (unfold content; rewrite E; reflexivity). rewrite Q, F. reflexivity.
Qed.
Lemma processable : forall p, unprocessable fmt fs p \/ exists s out, fs p = Text s /\ fmt s = Some out.
Proof.
  intro p. unfold unprocessable. destruct (fs p) as [| |s]; [left; exact Logic.I|left; exact Logic.I|]. destruct (fmt s) as [out|] eqn:F; [right; eauto|left; reflexivity].
Qed.
Lemma all_processable : forall l, Exists (unprocessable fmt fs) l \/ Forall (fun p => exists s out, fs p = Text s /\ fmt s = Some out) l.
Proof. induction l as [|p l [IH|IH]]; [right; constructor|left; right; exact IH|]. destruct (processable p); [left; left|right; constructor]; assumption. Qed.

Variable w : world.
Hypothesis distinct : NoDup files.
Hypothesis ran : steps fmt true false (start fs files) w.
Hypothesis ended : finished w.
Hypothesis disk_works : w_failed w = [].

(** Without flags and with --diff the run fails exactly if it fails with --write. *)
Theorem C62_exit : forall show fs' printed bad, process_in_order fmt show fs files = (fs', printed, bad) -> bad = exit_failure false w.
Proof.
  intros show fs' printed bad P. destruct (C19_schedule_independent _ _ _ _ distinct ran ended disk_works) as [_ X].
  destruct (in_order show files) as [O1 O2]. destruct (all_processable files) as [A|A].
  - destruct (O1 A) as (? & ? & O). rewrite O in P. injection P as _ _ <-. symmetry. apply X. apply Exists_exists in A. exact A.
  - rewrite (O2 A) in P. injection P as _ _ <-. destruct (exit_failure false w) eqn:E; [|reflexivity]. exfalso.
    destruct (proj1 X eq_refl) as (p & Hp & U). rewrite Forall_forall in A. destruct (A p Hp) as (s & out & E1 & E2). unfold unprocessable in U. rewrite E1 in U. congruence.
Qed.

(** What a run without flags prints is what --write leaves in the files. *)
Theorem C62_prints : forall fs' printed, process_in_order fmt (fun _ _ out => out) fs files = (fs', printed, false) ->
  printed = List.concat (map (content (w_fs w)) files).
Proof.
  intros fs' printed P. destruct (C19_write _ _ _ _ distinct ran ended) as (_ & _ & C & _).
  destruct (in_order (fun _ _ out => out) files) as [O1 O2]. destruct (all_processable files) as [A|A]; [destruct (O1 A) as (? & ? & O); congruence|].
  rewrite (O2 A) in P. injection P as _ <-. f_equal. apply map_ext_in. intros p Hp. rewrite Forall_forall in A. destruct (A p Hp) as (s & out & E & F).
  unfold content. rewrite E, F, (C p s out Hp E F); [reflexivity|]. rewrite disk_works. intros [].
Qed.

(** --check reports, and --diff prints something, exactly if --write changes a
    file; --write names these files. *)
Theorem C62_reports : forall wc fs' printed,
  steps fmt false true (start fs files) wc -> finished wc ->
  process_in_order fmt (print_diff hunks) fs files = (fs', printed, false) ->
  (exit_failure true wc = true <-> exists p, In p files /\ w_fs w p <> fs p)
  /\ (printed = [] <-> exit_failure true wc = false)
  /\ (forall p, In p (w_printed w) <-> In p files /\ w_fs w p <> fs p).
Proof.
  intros wc fs' printed Sc Fc P. destruct (C19_write _ _ _ _ distinct ran ended) as (_ & B & C & D & _).
  assert (A : Forall (fun p => exists s out, fs p = Text s /\ fmt s = Some out) files).
  { destruct (in_order (print_diff hunks) files) as [O1 _]. destruct (all_processable files) as [A|A]; [destruct (O1 A) as (? & ? & O); congruence|exact A]. }
  assert (X : forall p, In p files -> (w_fs w p <> fs p <-> changes fmt fs p)).
  { intros p Hp. rewrite Forall_forall in A. destruct (A p Hp) as (s & out & E & F).
    assert (Q : w_fs w p = Text out) by (apply (C p s out Hp E F); rewrite disk_works; intros []). rewrite Q, E. split.
    - intro Ne. exists s, out. repeat split; [exact E|exact F|]. congruence.
    - intros (s' & out' & E' & F' & Ne). congruence. }
  assert (Y : forall p, In p files -> (unclean fmt fs p <-> changes fmt fs p)).
  { intros p Hp. rewrite Forall_forall in A. destruct (A p Hp) as (s & out & E & F). unfold unclean. rewrite E, F. split.
    - intro Ne. exists s, out. repeat split; [exact E|exact F|]. congruence.
    - intros (s' & out' & E' & F' & Ne). congruence. }
  assert (R : exit_failure true wc = true <-> exists p, In p files /\ changes fmt fs p).
  { pose proof (out_parallel fmt (print_diff hunks) fs None files false true wc Sc Fc) as O.
    destruct (check_inv_steps _ _ _ _ _ Sc) as (I1 & I2 & I3 & I4 & I5 & I6). unfold exit_failure. cbn [andb]. split.
    - intro E. destruct (I6 E) as (p & Hp & Hu). exists p. split; [exact Hp|apply Y; assumption].
    - intros (p & Hp & Hu). apply Y in Hu; [|exact Hp]. rewrite <- I4 in Hp. apply in_map_iff in Hp as ([q t] & <- & Hq).
      rewrite Forall_forall in I5. destruct (I5 _ Hq) as [_ K]. red in Fc. rewrite Forall_forall in Fc. specialize (Fc _ Hq). cbn in Fc, K, Hu. subst t.
      destruct K as [->|[->|K]]; [reflexivity|apply orb_true_r|contradiction]. }
  split; [|split].
  - rewrite R. split; intros (p & Hp & K); exists p; (split; [exact Hp|]); apply X; assumption.
  - destruct (in_order (print_diff hunks) files) as [_ O2]. rewrite (O2 A) in P. injection P as _ <-.
    assert (Z : List.concat (map (fun p => match fmt (content fs p) with Some out => print_diff hunks p (content fs p) out | None => [] end) files) = []
                <-> forall p, In p files -> ~ changes fmt fs p).
    { clear - A. induction A as [|p l (s & out & E & F) A IH]; [split; [intros _ p []|reflexivity]|]. cbn [map List.concat].
      assert (Q : content fs p = s) by (unfold content; rewrite E; reflexivity). rewrite Q, F. clear Q. split.
      - intros K q [<-|Hq] Ch.
        + apply app_eq_nil in K. destruct K as [K _]. apply C49_silent in K. destruct Ch as (s' & out' & E' & F' & Ne). congruence.
        + apply app_eq_nil in K. destruct K as [_ K]. exact (proj1 IH K q Hq Ch).
      - intro K. rewrite (proj2 IH) by (intros q Hq; apply K; right; exact Hq). rewrite app_nil_r. apply C49_silent.
        destruct (list_eq_dec N.eq_dec s out) as [Q|Ne]; [exact Q|]. exfalso. apply (K p (or_introl eq_refl)). exists s, out. repeat split; assumption. }
    rewrite Z. destruct (exit_failure true wc).
    + split; [|discriminate]. intro K. destruct (proj1 R eq_refl) as (p & Hp & Ch). exfalso. exact (K p Hp Ch).
    + split; [reflexivity|]. intros _ p Hp Ch. assert (Q : false = true) by (apply R; eauto). discriminate Q.
  - intro p. rewrite D. rewrite disk_works. cbn [In]. split.
    + intros (Hp & Ch & _). split; [exact Hp|apply X; assumption].
    + intros (Hp & Ne). split; [exact Hp|]. split; [apply X; assumption|tauto].
Qed.
End Modes.
Print Assumptions C62_exit.
Print Assumptions C62_prints.
Print Assumptions C62_reports.

(** Two files, the second not formatted. *)
Example C62_witness :
  steps add_newline true false (start two_files [lit "a.md"; lit "b.md"]) after_write /\ finished after_write /\ w_failed after_write = []
  /\ process_in_order add_newline (fun _ _ out => out) two_files [lit "a.md"; lit "b.md"] = (two_files, lit "a" ++ [c_nl] ++ lit "b" ++ [c_nl], false)
  /\ List.concat (map (content (w_fs after_write)) [lit "a.md"; lit "b.md"]) = lit "a" ++ [c_nl] ++ lit "b" ++ [c_nl]
  /\ w_printed after_write = [lit "b.md"]
  /\ (exists printed, process_in_order add_newline (print_diff (fun _ _ => [])) two_files [lit "a.md"; lit "b.md"] = (two_files, printed, false) /\ printed <> []).
Proof.
  destruct C19_example as (A & B & _). split; [exact A|]. split; [exact B|]. split; [reflexivity|]. split; [vm_compute; reflexivity|]. split; [vm_compute; reflexivity|].
  split; [reflexivity|]. eexists. split; [vm_compute; reflexivity|]. discriminate.
Qed.
