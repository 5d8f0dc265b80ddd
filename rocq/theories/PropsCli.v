(** C18, C19, C20, C37: the command line and the files. *)
From Coq Require Import Bool Arith NArith Lia String Permutation List.
From Verif Require Import Base BaseFacts CliModel SpecCli CliProof.
Import ListNotations.

(** Example formatter: makes the text end with a newline. *)
Definition add_newline (s : str) : option str :=
  match rev s with
  | c :: _ => if ceq c c_nl then Some s else Some (s ++ [c_nl])
  | [] => Some s
  end.
Definition disk (l : list (path * fnode)) : fsys :=
  fun p => match find (fun e => seqb p (fst e)) l with Some e => snd e | None => Absent end.

(** C18, first half.  Without --write no run of any mode changes a file. *)
Theorem C18_read_only :
  forall fmt show expand has_include collected a fs stdin fs' failed,
    a_write a = false ->
    outcome fmt show fs stdin (select_mode expand has_include collected a) fs' failed ->
    forall p, fs' p = fs p.
Proof.
  intros fmt show expand inc coll a fs stdin fs' failed Hw H p.
  remember (select_mode expand inc coll a) as m eqn:E.
  destruct H; try reflexivity.
  - unfold select_mode in E. rewrite Hw in E.
    destruct (if is_nil (a_files a) && _ then _ else _) as [fl|]; [|discriminate].
    destruct (stdin_requested a); [discriminate|].
    destruct (a_check a) eqn:Ec; cbn in E; [|destruct (a_diff a); discriminate].
    injection E as <- -> ->.
    destruct (check_inv_steps _ _ _ _ _ H) as (X & _). now rewrite X.
  - now rewrite (in_order_fs _ _ _ _ _ _ _ H).
  - now rewrite (in_order_fs _ _ _ _ _ _ _ H).
Qed.
Print Assumptions C18_read_only.

(** ... nor at any moment in between: whatever the workers do, and in whatever
    order, nothing is opened for writing. *)
Theorem C18_check_every_moment :
  forall fmt write fs files w, steps fmt write true (start fs files) w ->
    (forall p, w_fs w p = fs p) /\ w_opened w = [].
Proof.
  intros fmt write fs files w H. destruct (check_inv_steps _ _ _ _ _ H) as (X & Y & _). now rewrite X.
Qed.
Print Assumptions C18_check_every_moment.

Lemma asks_stdin_iff : forall a, stdin_requested a = true <-> asks_stdin a.
Proof.
  intro a. unfold stdin_requested, asks_stdin. rewrite orb_true_iff. apply or_iff_compat_l. rewrite existsb_exists. split.
  - intros (x & I & E). apply seqb_true in E. subst x. exact I.
  - intro I. exists (lit "-"). split; [exact I|apply seqb_refl].
Qed.

(** C18, second half: the exit status of --check on files. *)
Theorem C18_check_reports :
  forall fmt show expand has_include collected a fs stdin fs' failed,
    a_check a = true -> args_accepted a = true -> ~ asks_stdin a ->
    outcome fmt show fs stdin (select_mode expand has_include collected a) fs' failed ->
    failed = true <->
      (input_files expand has_include collected a = None \/
       exists files p, input_files expand has_include collected a = Some files /\
         In p files /\ unclean fmt fs p).
Proof.
  intros fmt show expand inc coll a fs stdin fs' failed Hc Ha Hn H.
  assert (Hs : stdin_requested a = false) by (destruct (stdin_requested a) eqn:E; [apply asks_stdin_iff in E; contradiction|reflexivity]).
  assert (Hm : select_mode expand inc coll a =
    match input_files expand inc coll a with None => RunNothing | Some fl => RunParallel fl false true end).
  { unfold args_accepted in Ha. rewrite Hc, andb_true_r in Ha.
    destruct (a_write a) eqn:Ew; [discriminate|].
    unfold select_mode, input_files. rewrite Hs, Hc, Ew. cbn.
    destruct (a_files a); cbn; [destruct inc; [destruct coll|]|]; reflexivity. }
  rewrite Hm in H. destruct (input_files expand inc coll a) as [fl|].
  - inversion H as [| | |files0 wr ck w Hst Hfin E1 E2 E3| |]; subst.
    destruct (check_inv_steps _ _ _ _ _ Hst) as (I1 & I2 & I3 & I4 & I5 & I6).
    unfold exit_failure. cbn [andb]. split.
    + intros E. right. destruct (I6 E) as (p & Hp & Hu). eauto 6.
    + intros [E|(files & p & E & Hp & Hu)]; [discriminate|]. injection E as <-.
      rewrite <- I4 in Hp. apply in_map_iff in Hp as ([q t] & <- & Hq).
      rewrite Forall_forall in I5. destruct (I5 _ Hq) as [_ K].
      red in Hfin. rewrite Forall_forall in Hfin. specialize (Hfin _ Hq). cbn in Hfin, K, Hu. subst t.
      destruct K as [->|[->|K]]; [reflexivity|apply orb_true_r|contradiction].
  - inversion H; subst. split; auto.
Qed.
Print Assumptions C18_check_reports.

(** Where standard input is asked for, it alone is formatted, whatever else is
    asked for: the exit status says whether that worked, and no file changes. *)
Theorem C18_standard_input :
  forall fmt show expand has_include collected a fs stdin fs' failed, asks_stdin a ->
    outcome fmt show fs stdin (select_mode expand has_include collected a) fs' failed ->
    fs' = fs /\ (failed = true <-> match stdin with None => True | Some s => fmt s = None end).
Proof.
  intros fmt show expand inc coll a fs stdin fs' failed Hs H. apply asks_stdin_iff in Hs.
  unfold select_mode in H. rewrite Hs, andb_false_r in H. inversion H as [|E|s E| | |]; subst; (split; [reflexivity|]).
  - tauto.
  - destruct (fmt s); split; auto; discriminate.
Qed.
Print Assumptions C18_standard_input.
Example C18_standard_input_example :
  asks_stdin (mkArgs [lit "a.md"; lit "-"] false false true false)
  /\ select_mode (fun l => l) false None (mkArgs [lit "a.md"; lit "-"] false false true false) = RunStdin
  /\ ~ asks_stdin (mkArgs [lit "a.md"] false false true false).
Proof. split; [right; cbn; auto|]. split; [reflexivity|]. intros [H|[H|[]]]; discriminate. Qed.

(** Runs of the workers always come to an end: there is no infinite run, and a
    run that is not finished can go on. *)
Theorem C18_C19_runs_finish :
  forall fmt write check fs files w, steps fmt write check (start fs files) w ->
    Acc (fun w2 w1 => step fmt write check w1 w2) w /\
    (finished w \/ exists w', step fmt write check w w').
Proof.
  intros fmt write check fs files w H. split; [eapply step_acc; reflexivity|eapply progress; eauto].
Qed.
Print Assumptions C18_C19_runs_finish.

Lemma steps_left : forall fmt wr ck w1 w2 w3, step fmt wr ck w1 w2 -> steps fmt wr ck w2 w3 -> steps fmt wr ck w1 w3.
Proof. intros fmt wr ck w1 w2 w3 H1 H2. induction H2; eauto using steps_refl, steps_cons. Qed.
Ltac go l p r := eapply steps_left; [apply (step_any _ _ _ _ l p _ r)|].

(** Two files, the second unformatted: a complete run, exit status 1. *)
Definition two_files := disk [(lit "a.md", Text (lit "a" ++ [c_nl])); (lit "b.md", Text (lit "b"))].
Definition check_args := mkArgs [lit "a.md"; lit "b.md"] false false true false.
Example C18_example :
  outcome add_newline (fun _ _ o => o) two_files None
    (select_mode (fun l => l) false None check_args) two_files true /\
  unclean add_newline two_files (lit "b.md") /\ ~ unclean add_newline two_files (lit "a.md").
Proof.
  split; [|split; [unfold unclean; vm_compute; discriminate|unfold unclean; vm_compute; intros H; now apply H]].
  change (select_mode (fun l => l) false None check_args)
    with (RunParallel [lit "a.md"; lit "b.md"] false true).
  set (w := mkWorld two_files [(lit "a.md", TDone); (lit "b.md", TDone)] false true [] [] []).
  change (outcome add_newline (fun _ _ o => o) two_files None
    (RunParallel [lit "a.md"; lit "b.md"] false true) (w_fs w) (exit_failure true w)).
  apply out_parallel; [|unfold finished; cbn; auto].
  go (@nil (path * task)) (lit "a.md") [(lit "b.md", TStart)].
  { eapply step_read. reflexivity. }
  go [(lit "a.md", TRead (lit "a" ++ [c_nl]))] (lit "b.md") (@nil (path * task)).
  { eapply step_read. reflexivity. }
  go (@nil (path * task)) (lit "a.md") [(lit "b.md", TRead (lit "b"))].
  { eapply step_check_same; [reflexivity|]. reflexivity. }
  go [(lit "a.md", TDone)] (lit "b.md") (@nil (path * task)).
  { eapply step_check_differs; [reflexivity|vm_compute; reflexivity|discriminate]. }
  apply steps_refl.
Qed.

(** With standard input requested, --check has no effect: neither the text read
    nor the files also named are checked, and the exit status is 0. *)
Theorem C18_stdin_check_refuted :
  exists fmt a fs text fs',
    a_check a = true /\ args_accepted a = true /\
    (exists p, In p (a_files a) /\ p <> lit "-" /\ unclean fmt fs p) /\ fmt text <> Some text /\
    outcome fmt (fun _ _ o => o) fs (Some text) (select_mode (fun l => l) false None a) fs' false.
Proof.
  exists add_newline, (mkArgs [lit "-"; lit "b.md"] false false true false), two_files, (lit "x"), two_files.
  split; [reflexivity|split; [reflexivity|split; [|split]]].
  - exists (lit "b.md"). split; [cbn; auto|split; [discriminate|]]. unfold unclean; vm_compute; discriminate.
  - vm_compute; discriminate.
  - change (select_mode (fun l => l) false None _) with RunStdin.
    apply (out_stdin add_newline _ two_files (Some (lit "x")) (lit "x")). reflexivity.
Qed.
Print Assumptions C18_stdin_check_refuted.

(** C19.  After a --write run over distinct files: only files that change were
    opened; every file that could be processed holds its formatted text unless
    its own write failed; everything else is as before; the exit status tells. *)
Theorem C19_write :
  forall fmt fs files w,
    NoDup files -> steps fmt true false (start fs files) w -> finished w ->
    (forall p, In p (w_opened w) -> In p files /\ changes fmt fs p) /\
    (forall p, ~ In p (w_opened w) -> w_fs w p = fs p) /\
    (forall p s out, In p files -> fs p = Text s -> fmt s = Some out -> ~ In p (w_failed w) ->
       w_fs w p = Text out) /\
    (forall p, In p (w_printed w) <-> In p files /\ changes fmt fs p /\ ~ In p (w_failed w)) /\
    (exit_failure false w = true <->
       exists p, In p files /\ (unprocessable fmt fs p \/ In p (w_failed w))).
Proof.
  intros fmt fs files w Hnd H Hfin.
  destruct (write_inv_steps _ _ _ _ Hnd H) as (I1 & _ & I2 & I3 & I4 & I5).
  assert (Hdone : forall p, In p files -> write_ok fmt fs (w_error w) (w_fs w) (w_printed w) (w_opened w) (w_failed w) p TDone).
  { intros p Hp. rewrite <- I1 in Hp. apply in_map_iff in Hp as ([q t] & <- & Hq). cbn.
    red in Hfin. rewrite Forall_forall in Hfin. specialize (Hfin _ Hq). cbn in Hfin. subst t. exact (I2 _ _ Hq). }
  assert (Hdec : forall p, In p files \/ ~ In p files).
  { intros p. destruct (in_dec (list_eq_dec N.eq_dec) p files); auto. }
  repeat apply conj.
  - intros p Hp. destruct (Hdec p) as [Hf|Hf]; [|destruct (I3 p Hf) as (_ & X & _); contradiction].
    split; auto. destruct (Hdone p Hf) as [D|[(s & D)|[(s & o & D)|D]]]; try tauto.
    exists s, o; tauto.
  - intros p Hp. destruct (Hdec p) as [Hf|Hf]; [|now apply I3].
    destruct (Hdone p Hf) as [D|[(s & D)|[(s & o & D)|D]]]; try tauto.
    destruct D as (A & _ & B & _). congruence.
  - intros p s out Hf Hs Ho Hn.
    destruct (Hdone p Hf) as [D|[(s' & D)|[(s' & o & D)|D]]]; try tauto.
    + destruct D as (D & _). unfold unprocessable in D. rewrite Hs in D. congruence.
    + destruct D as (A & B & C & _). congruence.
    + destruct D as (A & B & _ & C & _). congruence.
  - intros p. split.
    + intros Hp. destruct (Hdec p) as [Hf|Hf]; [|destruct (I3 p Hf) as (_ & _ & X & _); contradiction].
      destruct (Hdone p Hf) as [D|[(s & D)|[(s & o & D)|D]]]; try tauto.
      repeat split; try tauto. exists s, o; tauto.
    + intros (Hf & (s & o & A & B & C) & Hn).
      destruct (Hdone p Hf) as [D|[(s' & D)|[(s' & o' & D)|D]]]; try tauto.
      * destruct D as (D & _). unfold unprocessable in D. rewrite A in D. congruence.
      * destruct D as (D1 & D2 & _). congruence.
  - intros E. unfold exit_failure in E. cbn in E. rewrite orb_false_r in E. auto.
  - intros (p & Hf & Hp). unfold exit_failure. cbn. rewrite orb_false_r.
    destruct (Hdone p Hf) as [D|[(s & D)|[(s & o & D)|D]]]; try tauto.
    + destruct D as (A & B & _ & _ & _ & D). destruct Hp as [Hp|Hp]; [|contradiction].
      unfold unprocessable in Hp. rewrite A in Hp. congruence.
    + destruct D as (A & B & _ & _ & _ & _ & D). destruct Hp as [Hp|Hp]; [|contradiction].
      unfold unprocessable in Hp. rewrite A in Hp. congruence.
Qed.
Print Assumptions C19_write.

(** The result does not depend on the schedule: when no write fails, every run
    ends with the same files and the same exit status. *)
Theorem C19_schedule_independent :
  forall fmt fs files w,
    NoDup files -> steps fmt true false (start fs files) w -> finished w -> w_failed w = [] ->
    (forall p, w_fs w p = formatted_fs fmt files fs p) /\
    (exit_failure false w = true <-> exists p, In p files /\ unprocessable fmt fs p).
Proof.
  intros fmt fs files w Hnd H Hfin Hn.
  destruct (C19_write _ _ _ _ Hnd H Hfin) as (A & B & C & D & E). split.
  - intros p. unfold formatted_fs. destruct (existsb (seqb p) files) eqn:Ex.
    + apply existsb_exists in Ex as (q & Hq & Eq). apply seqb_true in Eq. subst q.
      destruct (fs p) as [| |s] eqn:Ep.
      * rewrite B, Ep; auto. intros X. apply A in X as (_ & s & o & X & _). congruence.
      * rewrite B, Ep; auto. intros X. apply A in X as (_ & s & o & X & _). congruence.
      * destruct (fmt s) as [o|] eqn:Eo.
        -- apply C with (s := s); auto. rewrite Hn. intros [].
        -- rewrite B, Ep; auto. intros X. apply A in X as (_ & s' & o & X & Y & _). congruence.
    + apply B. intros X. apply A in X as (X & _).
      assert (existsb (seqb p) files = true); [|congruence]. apply existsb_exists. exists p. split; auto. apply seqb_refl.
  - rewrite E, Hn. cbn. split; intros (p & X); exists p; tauto.
Qed.
Print Assumptions C19_schedule_independent.

(** A full write run: "b.md" is rewritten in two pieces, "a.md" is not opened. *)
Definition after_write : world :=
  mkWorld (fs_set (fs_set (fs_set two_files (lit "b.md") (Text [])) (lit "b.md") (Text (firstn 1 (lit "b" ++ [c_nl]))))
             (lit "b.md") (Text (firstn 2 (lit "b" ++ [c_nl]))))
    [(lit "a.md", TDone); (lit "b.md", TDone)] false false [lit "b.md"] [lit "b.md"] [].
Example C19_example :
  steps add_newline true false (start two_files [lit "a.md"; lit "b.md"]) after_write /\ finished after_write /\
  w_fs after_write (lit "b.md") = Text (lit "b" ++ [c_nl]).
Proof.
  split; [|split; [unfold finished; cbn; auto|reflexivity]]. unfold after_write.
  go [(lit "a.md", TStart)] (lit "b.md") (@nil (path * task)).
  { eapply step_read. reflexivity. }
  go (@nil (path * task)) (lit "a.md") [(lit "b.md", TRead (lit "b"))].
  { eapply step_read. reflexivity. }
  go (@nil (path * task)) (lit "a.md") [(lit "b.md", TRead (lit "b"))].
  { eapply step_skip with (s := lit "a" ++ [c_nl]); [reflexivity|vm_compute; reflexivity|auto]. }
  go [(lit "a.md", TDone)] (lit "b.md") (@nil (path * task)).
  { eapply step_open with (s := lit "b"); [reflexivity|reflexivity|vm_compute; reflexivity|discriminate]. }
  go [(lit "a.md", TDone)] (lit "b.md") (@nil (path * task)).
  { apply step_write with (n := 0) (m := 1); cbn; lia. }
  go [(lit "a.md", TDone)] (lit "b.md") (@nil (path * task)).
  { apply step_write with (n := 1) (m := 2); cbn; lia. }
  go [(lit "a.md", TDone)] (lit "b.md") (@nil (path * task)).
  { apply step_close with (out := lit "b" ++ [c_nl]). }
  apply steps_refl.
Qed.

(** Distinctness is needed.  If one file is listed twice (the arguments
    [docs docs/a.md] do that), a worker can read what the other has written so
    far, and its write then replaces the text by the formatted fragment: no
    error is reported and the rest of the file is gone. *)
Theorem C19_duplicate_arguments_refuted :
  exists fmt fs p s w,
    fs p = Text s /\ steps fmt true false (start fs [p; p]) w /\ finished w /\
    exit_failure false w = false /\ w_failed w = [] /\
    w_fs w p = Text (lit "a" ++ [c_nl]) /\ fmt s = Some (lit "ab" ++ [c_nl]).
Proof.
  set (p := lit "b.md"). set (out := lit "ab" ++ [c_nl]). set (out2 := lit "a" ++ [c_nl]).
  exists add_newline, (disk [(p, Text (lit "ab"))]), p, (lit "ab").
  set (fs0 := disk [(p, Text (lit "ab"))]).
  set (fs1 := fs_set (fs_set fs0 p (Text [])) p (Text (firstn 1 out))).
  set (fs2 := fs_set fs1 p (Text (firstn 3 out))).
  set (fs3 := fs_set (fs_set fs2 p (Text [])) p (Text (firstn 2 out2))).
  exists (mkWorld fs3 [(p, TDone); (p, TDone)] false false [p; p] [p; p] []).
  split; [reflexivity|split; [|split; [unfold finished; cbn; auto|repeat split]]].
  go (@nil (path * task)) p [(p, TStart)].
  { eapply step_read. reflexivity. }
  go (@nil (path * task)) p [(p, TStart)].
  { eapply step_open with (s := lit "ab"); [reflexivity|reflexivity|vm_compute; reflexivity|discriminate]. }
  go (@nil (path * task)) p [(p, TStart)].
  { apply step_write with (n := 0) (m := 1); cbn; lia. }
  go [(p, TWriting out 1)] p (@nil (path * task)).
  { eapply step_read. reflexivity. }
  go (@nil (path * task)) p [(p, TRead (lit "a"))].
  { apply step_write with (n := 1) (m := 3); cbn; lia. }
  go (@nil (path * task)) p [(p, TRead (lit "a"))].
  { apply step_close with (out := out). }
  go [(p, TDone)] p (@nil (path * task)).
  { eapply step_open with (s := lit "a"); [reflexivity|reflexivity|vm_compute; reflexivity|discriminate]. }
  go [(p, TDone)] p (@nil (path * task)).
  { apply step_write with (n := 0) (m := 2); cbn; lia. }
  go [(p, TDone)] p (@nil (path * task)).
  { apply step_close with (out := out2). }
  apply steps_refl.
Qed.
Print Assumptions C19_duplicate_arguments_refuted.

(** C20.  Full claim: at every reachable world each file is the original or the
    formatted text.  What is true: only a file whose write has begun and is not
    reported as done can be anything else, and then it is a beginning of the
    formatted text. *)
Theorem C20_crash_partial :
  forall fmt fs files w, NoDup files -> steps fmt true false (start fs files) w ->
    forall p,
      w_fs w p = fs p \/
      (exists s out, fs p = Text s /\ fmt s = Some out /\ s <> out /\ w_fs w p = Text out) \/
      (In p files /\ In p (w_opened w) /\ ~ In p (w_printed w) /\
       exists s out n, fs p = Text s /\ fmt s = Some out /\ s <> out /\ w_fs w p = Text (firstn n out)).
Proof.
  intros fmt fs files w Hnd H p.
  destruct (write_inv_steps _ _ _ _ Hnd H) as (I1 & _ & I2 & I3 & I4 & I5).
  destruct (in_dec (list_eq_dec N.eq_dec) p files) as [Hf|Hf]; [|left; now apply I3].
  pose proof Hf as Hf'. rewrite <- I1 in Hf'. apply in_map_iff in Hf' as ([q t] & <- & Hq). cbn in *.
  specialize (I2 _ _ Hq). destruct t as [|s|out n|]; cbn in I2.
  - left. tauto.
  - left. destruct I2 as (A & B & _). congruence.
  - do 2 right. destruct I2 as (s & I2). repeat split; try tauto. exists s, out, n. tauto.
  - destruct I2 as [D|[(s & D)|[(s & o & D)|D]]]; try tauto.
    + left. destruct D as (A & _ & B & _). congruence.
    + right; left. exists s, o. tauto.
    + destruct D as ((s0 & o0 & C1 & C2 & C3) & _ & F & G & [D|(D & s & o & n & D1 & D2 & D3)]); [tauto|].
      do 2 right. repeat split; auto. exists s, o, n. repeat split; auto. congruence.
Qed.
Print Assumptions C20_crash_partial.

(** The full claim fails: [fs::write] truncates first.  A crash there leaves an
    empty file. *)
Theorem C20_crash_refuted :
  exists fmt fs files w p s out,
    NoDup files /\ steps fmt true false (start fs files) w /\ In p files /\
    fs p = Text s /\ fmt s = Some out /\ s <> [] /\ out <> [] /\ w_fs w p = Text [].
Proof.
  set (p := lit "b.md"). exists add_newline, two_files, [p],
    (mkWorld (fs_set two_files p (Text [])) [(p, TWriting (lit "b" ++ [c_nl]) 0)] false false [] [p] []), p, (lit "b"), (lit "b" ++ [c_nl]).
  split; [constructor; [intros []|constructor]|]. split; [|repeat split; try discriminate; left; reflexivity].
  go (@nil (path * task)) p (@nil (path * task)).
  { eapply step_read. reflexivity. }
  go (@nil (path * task)) p (@nil (path * task)).
  { eapply step_open with (s := lit "b"); [reflexivity|reflexivity|vm_compute; reflexivity|discriminate]. }
  apply steps_refl.
Qed.
Print Assumptions C20_crash_refuted.

(** Not only a crash: when the disk is full the run ends, reports an error, and
    the original text is gone. *)
Theorem C20_failed_write_refuted :
  exists fmt fs files w p s,
    NoDup files /\ steps fmt true false (start fs files) w /\ finished w /\ In p files /\
    fs p = Text s /\ s <> [] /\ w_fs w p = Text [].
Proof.
  set (p := lit "b.md"). exists add_newline, two_files, [p],
    (mkWorld (fs_set two_files p (Text [])) [(p, TDone)] true false [] [p] [p]), p, (lit "b").
  split; [constructor; [intros []|constructor]|].
  split; [|split; [unfold finished; cbn; auto|repeat split; try discriminate; left; reflexivity]].
  go (@nil (path * task)) p (@nil (path * task)).
  { eapply step_read. reflexivity. }
  go (@nil (path * task)) p (@nil (path * task)).
  { eapply step_open with (s := lit "b"); [reflexivity|reflexivity|vm_compute; reflexivity|discriminate]. }
  go (@nil (path * task)) p (@nil (path * task)).
  { apply step_write_error with (out := lit "b" ++ [c_nl]) (n := 0). }
  apply steps_refl.
Qed.
Print Assumptions C20_failed_write_refuted.

(** C37.  Every argument contributes, in order: a directory the Markdown files
    below it, each once and sorted; anything else itself. *)
Theorem C37_expand_paths :
  forall lookup paths,
    exists parts, expand_paths lookup paths = List.concat parts /\
      Forall2 (fun arg part =>
        match lookup arg with
        | Some (Dir es) =>
            (forall p, In p part <->
               exists below, p = arg ++ below /\ file_at (Dir es) below /\ markdown_name (last below [])) /\
            (well_named (Dir es) -> NoDup part) /\ in_order part
        | _ => part = [arg]
        end) paths parts.
Proof.
  intros lookup paths. induction paths as [|arg r (parts & IH1 & IH2)].
  - exists []. split; [reflexivity|constructor].
  - unfold expand_paths in *. cbn [flat_map]. rewrite IH1. eexists (_ :: parts). split; [reflexivity|].
    constructor; auto. destruct (lookup arg) as [[| |es]|]; auto. unfold collect_md_files. split.
    + intros p. rewrite sort_in, filter_In, walk_in, markdown_iff.
      assert (Hl : forall q, file_at (Dir es) q -> last (arg ++ q) [] = last q []).
      { intros q Hq. inversion Hq; subst. clear. induction arg as [|x a IH]; cbn [app]; auto.
        rewrite <- IH. destruct (a ++ n :: p0) eqn:E; [destruct a; discriminate|reflexivity]. }
      split.
      * intros ((q & -> & Hq) & Hm). exists q. rewrite Hl in Hm; auto.
      * intros (q & -> & Hq & Hm). split; [eauto|]. rewrite Hl; auto.
    + split; [|apply sort_order]. intros Hw. apply sort_nodup, NoDup_filter, walk_nodup. exact Hw.
Qed.
Print Assumptions C37_expand_paths.

Definition docs := Dir [(lit "z.MD", Leaf); (lit "sub", Dir [(lit "b.MarkDown", Leaf); (lit "c.txt", Leaf); (lit ".md", Leaf)]);
  (lit "a.b.md", Leaf); (lit "amd", Leaf)].
(** A hidden file named ".md" has no extension and is skipped; a directory and
    a file in it given together list the file twice. *)
Example C37_example :
  expand_paths (fun p => if path_leb p [lit "docs"] && path_leb [lit "docs"] p then Some docs else None)
    [[lit "docs"]; [lit "docs"; lit "z.MD"]; [lit "x.txt"]]
  = [[lit "docs"; lit "a.b.md"]; [lit "docs"; lit "sub"; lit "b.MarkDown"]; [lit "docs"; lit "z.MD"];
     [lit "docs"; lit "z.MD"]; [lit "x.txt"]].
Proof. reflexivity. Qed.

(** Without path arguments the files are those the walker finds for the
    configured patterns: all its regular files, sorted, whatever the order it
    finds them in, or an error if it meets one.  (Which entries the walker
    yields for which patterns is up to the crate [ignore].) *)
Theorem C37_collect_files :
  forall include ok entries,
    match collect_files include ok entries with
    | None => include <> [] /\ (ok = false \/ In None entries)
    | Some files =>
        (include = [] -> files = []) /\
        (include <> [] ->
           ok = true /\ ~ In None entries /\ in_order files /\
           Permutation files (flat_map (fun e => match e with Some (p, true) => [p] | _ => [] end) entries) /\
           forall entries', Permutation entries entries' -> collect_files include ok entries' = Some files)
    end.
Proof.
  intros include ok entries.
  assert (G : forall es fs,
    (fix go (es : list (option (tpath * bool))) (files : list tpath) : option (list tpath) :=
       match es with
       | [] => Some (sort_paths files)
       | None :: _ => None
       | Some (p, file) :: r => go r (if file then files ++ [p] else files)
       end) es fs =
    if existsb (fun e => match e with None => true | _ => false end) es then None
    else Some (sort_paths (fs ++ flat_map (fun e => match e with Some (p, true) => [p] | _ => [] end) es))).
  { induction es as [|[[p b]|] es IH]; intro fs; cbn [existsb flat_map orb]; [rewrite app_nil_r; reflexivity| |reflexivity].
    rewrite IH. destruct b; [rewrite <- app_assoc|]; reflexivity. }
  assert (X : forall es, existsb (fun e : option (tpath * bool) => match e with None => true | _ => false end) es = true <-> In None es).
  { intro es. rewrite existsb_exists. split; [intros ([|] & I & E); [discriminate|exact I]|exists None; auto]. }
  assert (C : forall es, collect_files include ok es =
    if is_nil include then Some [] else if negb ok then None else
    if existsb (fun e => match e with None => true | _ => false end) es then None
    else Some (sort_paths (flat_map (fun e => match e with Some (p, true) => [p] | _ => [] end) es))).
  { intro es. unfold collect_files. rewrite G. reflexivity. }
  rewrite C. destruct include as [|i include]; cbn [is_nil].
  - split; [auto|congruence].
  - destruct ok; cbn [negb]; [|split; [discriminate|auto]].
    destruct (existsb _ entries) eqn:E.
    + split; [discriminate|]. right. apply X. exact E.
    + split; [discriminate|]. intros _. split; [reflexivity|].
      assert (N : ~ In None entries) by (rewrite <- X, E; discriminate).
      split; [exact N|]. split; [apply sort_order|]. split; [apply sort_permutation|].
      intros es P. rewrite C. cbn [is_nil negb].
      destruct (existsb _ es) eqn:E2.
      { exfalso. apply N. apply X in E2. eapply Permutation_in; [apply Permutation_sym; exact P|exact E2]. }
      f_equal. apply sort_same. apply Permutation_sym. apply Permutation_flat_map. exact P.
Qed.
Print Assumptions C37_collect_files.

Example C37_collect_example :
  collect_files [lit "**/*.md"] true
    [Some ([lit "docs"], false); Some ([lit "docs"; lit "b.md"], true); Some ([lit "docs"; lit "a.md"], true);
     Some ([lit "README.md"], true)]
  = Some [[lit "README.md"]; [lit "docs"; lit "a.md"]; [lit "docs"; lit "b.md"]].
Proof. reflexivity. Qed.
