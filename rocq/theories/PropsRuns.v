(** C57: what the runs of the program say about one another. *)
From Coq Require Import Bool Arith NArith Lia String Permutation List.
From Verif Require Import Base BaseFacts CliModel SpecCli CliProof PropsCli DiffModel PropsDiff OptsModel CodeModel AstModel StateModel SerModel
  NestProof PropsStructure PropsAgain WrapModel WrapProof WarnModel SpecWrap SpecStructure SpecState SpecDoc SpecAgain AgainDoc AgainTop PropsAgainDoc.
Import ListNotations.

(** The same files, with other flags. *)
Definition with_write (files : list path) : args := mkArgs files false true false false.
Definition with_check (files : list path) : args := mkArgs files false false true false.
(** A file of the first file system whose formatted text is not formatted. *)
Definition restless (fmt : str -> option str) (fs : fsys) (p : path) : Prop :=
  exists s out, fs p = Text s /\ fmt s = Some out /\ fmt out <> Some out.

Lemma write_mode : forall expand inc coll fl, ~ In (lit "-") fl ->
  select_mode expand inc coll (with_write fl) =
  match input_files expand inc coll (with_write fl) with None => RunNothing | Some files => RunParallel files true false end.
Proof.
  intros expand inc coll fl N.
  assert (Hs : stdin_requested (with_write fl) = false).
  { destruct (stdin_requested (with_write fl)) eqn:E; [|reflexivity]. apply asks_stdin_iff in E. destruct E as [E|E]; [discriminate|contradiction]. }
  unfold select_mode, input_files. rewrite Hs. cbn [with_write a_files a_write a_check a_diff negb andb orb].
  destruct fl; cbn; [destruct inc; [destruct coll|]|]; reflexivity.
Qed.
(** A run with --write that succeeds leaves every file formatted once. *)
Lemma write_outcome : forall fmt show expand inc coll fl fs stdin fs1, ~ In (lit "-") fl ->
  outcome fmt show fs stdin (select_mode expand inc coll (with_write fl)) fs1 false ->
  exists files, input_files expand inc coll (with_write fl) = Some files /\
    (NoDup files -> (forall p, In p files -> exists s out, fs p = Text s /\ fmt s = Some out /\ fs1 p = Text out)
                    /\ forall p, ~ In p files -> fs1 p = fs p).
Proof.
  intros fmt show expand inc coll fl fs stdin fs1 N H. rewrite (write_mode _ _ _ _ N) in H.
  destruct (input_files expand inc coll (with_write fl)) as [files|]; [|inversion H].
  exists files. split; [reflexivity|]. intro ND. remember false as bad eqn:Eb in H at 2. inversion H as [| | |f wr ck w Hst Hfin E1 E2 E3| |]; subst.
  destruct (C19_write _ _ _ _ ND Hst Hfin) as (A & B & C & D & E).
  assert (X : forall p, In p files -> ~ unprocessable fmt fs p /\ ~ In p (w_failed w)).
  { intros p Hp. split; intro K; (assert (Q : exit_failure false w = true) by (apply E; exists p; auto); congruence). }
  split.
  - intros p Hp. destruct (X p Hp) as [U F]. unfold unprocessable in U. destruct (fs p) as [| |s] eqn:Ep; try (exfalso; apply U; exact Logic.I).
    destruct (fmt s) as [out|] eqn:Eo; [|exfalso; apply U; reflexivity]. exists s, out. split; [reflexivity|]. split; [exact Eo|]. eapply C; eassumption.
  - intros p Hp. apply B. intro K. apply A in K. destruct K as [K _]. contradiction.
Qed.

(** After a run with --write that succeeded, --check on the same files succeeds
    exactly if what was written for each file is what formatting it again gives. *)
Theorem C57_check_after_write : forall fmt show expand inc coll fl fs stdin stdin' fs1 fs2 failed files,
  ~ In (lit "-") fl -> input_files expand inc coll (with_write fl) = Some files -> NoDup files ->
  outcome fmt show fs stdin (select_mode expand inc coll (with_write fl)) fs1 false ->
  outcome fmt show fs1 stdin' (select_mode expand inc coll (with_check fl)) fs2 failed ->
  (forall p, fs2 p = fs1 p) /\ (failed = true <-> exists p, In p files /\ restless fmt fs p).
Proof.
  intros fmt show expand inc coll fl fs stdin stdin' fs1 fs2 failed files N F ND W C.
  destruct (write_outcome _ _ _ _ _ _ _ _ _ N W) as (files' & F' & X). rewrite F in F'. injection F' as <-. destruct (X ND) as [X1 _].
  split; [exact (C18_read_only _ _ _ _ _ (with_check fl) _ _ _ _ eq_refl C)|].
  assert (Ns : ~ asks_stdin (with_check fl)) by (intros [K|K]; [discriminate|contradiction]).
  rewrite (C18_check_reports _ _ _ _ _ (with_check fl) _ _ _ _ eq_refl eq_refl Ns C).
  change (input_files expand inc coll (with_check fl)) with (input_files expand inc coll (with_write fl)). rewrite F. split.
  - intros [K|(fl' & p & K & Hp & U)]; [discriminate|]. injection K as <-. exists p. split; [exact Hp|].
    destruct (X1 p Hp) as (s & out & E1 & E2 & E3). exists s, out. unfold unclean in U. rewrite E3 in U. auto.
  - intros (p & Hp & s & out & E1 & E2 & E3). right. exists files, p. split; [reflexivity|]. split; [exact Hp|].
    destruct (X1 p Hp) as (s' & out' & E4 & E5 & E6). rewrite E1 in E4. injection E4 as <-. rewrite E2 in E5. injection E5 as <-.
    unfold unclean. rewrite E6. exact E3.
Qed.
Print Assumptions C57_check_after_write.

(** A second run with --write opens a file exactly if it is such a file. *)
Theorem C57_write_again : forall fmt show expand inc coll fl fs stdin fs1 files w,
  ~ In (lit "-") fl -> input_files expand inc coll (with_write fl) = Some files -> NoDup files ->
  outcome fmt show fs stdin (select_mode expand inc coll (with_write fl)) fs1 false ->
  steps fmt true false (start fs1 files) w -> finished w ->
  (forall p, In p (w_opened w) -> In p files /\ restless fmt fs p)
  /\ ((forall p, In p files -> ~ restless fmt fs p) -> (forall p, w_fs w p = fs1 p) /\ w_printed w = [] /\ exit_failure false w = false).
Proof.
  intros fmt show expand inc coll fl fs stdin fs1 files w N F ND W St Fin.
  destruct (write_outcome _ _ _ _ _ _ _ _ _ N W) as (files' & F' & X). rewrite F in F'. injection F' as <-. destruct (X ND) as [X1 X2].
  destruct (C19_write _ _ _ _ ND St Fin) as (A & B & C & D & E).
  assert (R : forall p, changes fmt fs1 p -> In p files -> restless fmt fs p).
  { intros p (s & out & K1 & K2 & K3) Hp. destruct (X1 p Hp) as (s0 & out0 & E1 & E2 & E3). rewrite E3 in K1. injection K1 as ->.
    exists s0, s. split; [exact E1|]. split; [exact E2|]. congruence. }
  split.
  - intros p Hp. destruct (A p Hp) as [Hf Hc]. split; [exact Hf|apply R; assumption].
  - intro Q.
    assert (O : w_opened w = []).
    { destruct (w_opened w) as [|p r]; [reflexivity|]. destruct (A p (or_introl eq_refl)) as [Hf Hc]. exfalso. exact (Q p Hf (R p Hc Hf)). }
    assert (P : w_printed w = []).
    { destruct (w_printed w) as [|p r]; [reflexivity|]. destruct (proj1 (D p) (or_introl eq_refl)) as (Hf & Hc & _). exfalso. exact (Q p Hf (R p Hc Hf)). }
    split; [intro p; apply B; rewrite O; intros []|]. split; [exact P|].
    destruct (exit_failure false w) eqn:Ex; [|reflexivity]. exfalso. destruct (proj1 E eq_refl) as (p & Hp & K).
    destruct (X1 p Hp) as (s & out & E1 & E2 & E3).
    assert (I : fmt out = Some out).
    { destruct (fmt out) as [o'|] eqn:Fo.
      - destruct (list_eq_dec N.eq_dec o' out) as [->|Ne]; [reflexivity|]. exfalso. apply (Q p Hp). exists s, out. rewrite Fo. repeat split; congruence.
      - exfalso. apply (Q p Hp). exists s, out. rewrite Fo. repeat split; congruence. }
    destruct K as [K|K]; [unfold unprocessable in K; rewrite E3 in K; congruence|].
    destruct (write_inv_steps _ _ _ _ ND St) as (I1 & _ & I2 & _).
    pose proof Hp as Hq. rewrite <- I1 in Hq. apply in_map_iff in Hq. destruct Hq as ([q t] & Eq & Hq). cbn [fst] in Eq. subst q.
    red in Fin. rewrite Forall_forall in Fin. pose proof (Fin _ Hq) as T. cbn [snd] in T. subst t. specialize (I2 _ _ Hq). cbn in I2.
    destruct I2 as [(_ & _ & _ & _ & _ & Z)|[(? & _ & _ & _ & _ & _ & Z)|[(? & ? & _ & _ & _ & _ & _ & _ & Z)|(Ch & _)]]]; try contradiction.
    exact (Q p Hp (R p Ch Hp)).
Qed.
Print Assumptions C57_write_again.

(** And --diff prints nothing exactly if there is no such file. *)
Theorem C57_diff_after_write : forall fmt show hunks expand inc coll fl fs stdin fs1 files fs2 printed bad,
  ~ In (lit "-") fl -> input_files expand inc coll (with_write fl) = Some files -> NoDup files ->
  outcome fmt show fs stdin (select_mode expand inc coll (with_write fl)) fs1 false ->
  process_in_order fmt (print_diff hunks) fs1 files = (fs2, printed, bad) ->
  (bad = false /\ printed = [] <-> forall p, In p files -> ~ restless fmt fs p).
Proof.
  intros fmt show hunks expand inc coll fl fs stdin fs1 files fs2 printed bad N F ND W P.
  destruct (write_outcome _ _ _ _ _ _ _ _ _ N W) as (files' & F' & X). rewrite F in F'. injection F' as <-. destruct (X ND) as [X1 _].
  clear F ND W X. revert fs2 printed bad P. induction files as [|p r IH]; intros fs2 printed bad P; cbn [process_in_order] in P.
  - injection P as <- <- <-. split; [intros _ p []|auto].
  - destruct (X1 p (or_introl eq_refl)) as (s & out & E1 & E2 & E3). unfold read_file in P. rewrite E3 in P.
    destruct (fmt out) as [again|] eqn:Fo.
    + destruct (process_in_order fmt (print_diff hunks) fs1 r) as [[fs3 pr] b] eqn:R. injection P as <- <- <-.
      specialize (IH (fun q Hq => X1 q (or_intror Hq)) _ _ _ eq_refl). split.
      * intros [-> Z]. apply app_eq_nil in Z. destruct Z as [Z1 Z2]. apply C49_silent in Z1. subst again.
        intros q [<-|Hq]; [|exact (proj1 IH (conj eq_refl Z2) q Hq)].
        intros (s' & out' & K1 & K2 & K3). rewrite E1 in K1. injection K1 as <-. rewrite E2 in K2. injection K2 as <-. congruence.
      * intro Q. destruct (proj2 IH (fun q Hq => Q q (or_intror Hq))) as [-> ->]. split; [reflexivity|]. rewrite app_nil_r. apply C49_silent.
        destruct (list_eq_dec N.eq_dec out again) as [E|Ne]; [exact E|]. exfalso. apply (Q p (or_introl eq_refl)). exists s, out. rewrite Fo. repeat split; congruence.
    + injection P as <- <- <-. split; [intros [Z _]; discriminate|]. intro Q. exfalso. apply (Q p (or_introl eq_refl)). exists s, out. rewrite Fo. repeat split; congruence.
Qed.
Print Assumptions C57_diff_after_write.

(** With the formatter itself: where C45 applies to every file, --check succeeds
    after --write.  Partial as C45 is. *)
Theorem C57_documents_partial : forall U PN ENT parse o B checks show expand inc coll fl fs stdin stdin' fs1 fs2 failed files,
  let fmt s := match format_with_warnings U PN ENT parse o B checks s with Ok (out, _) => Some out | Panic => None end in
  width_laws U -> four_columns o ->
  ~ In (lit "-") fl -> input_files expand inc coll (with_write fl) = Some files -> NoDup files ->
  outcome fmt show fs stdin (select_mode expand inc coll (with_write fl)) fs1 false ->
  (forall f input out, In f files -> fs f = Text input -> fmt input = Some out ->
     exists p cs p' cs' ws, parse input = Node NDocument p cs /\ parse out = Node NDocument p' cs'
       /\ again_blocks U PN ENT o B (lines input) (lines out) (ends_with_newline input) (ends_with_newline out) Format ([], []) cs cs'
       /\ same_sides cs cs' /\ check_undefined checks (lines out) (parse out) = Ok ws) ->
  outcome fmt show fs1 stdin' (select_mode expand inc coll (with_check fl)) fs2 failed ->
  failed = false.
Proof.
  intros U PN ENT parse o B checks show expand inc coll fl fs stdin stdin' fs1 fs2 failed files fmt Wl Fc N F ND W A C.
  destruct (C57_check_after_write _ _ _ _ _ _ _ _ _ _ _ _ _ N F ND W C) as [_ K]. destruct failed; [|reflexivity]. exfalso.
  destruct (proj1 K eq_refl) as (f & Hf & input & out & E1 & E2 & E3). destruct (A f input out Hf E1 E2) as (p & cs & p' & cs' & ws & P1 & P2 & Ab & Sd & Ck).
  apply E3. unfold fmt in E2. destruct (format_with_warnings U PN ENT parse o B checks input) as [[out' warns]|] eqn:E; [|discriminate]. injection E2 as ->.
  destruct (C45_format_partial _ _ _ _ _ _ _ _ _ _ _ _ _ _ _ Wl Fc E P1 P2 Ab Sd Ck) as [warns' E']. unfold fmt. rewrite E'. reflexivity.
Qed.
Print Assumptions C57_documents_partial.

(** ** Examples *)
Definition files57 : list path := [lit "a.md"; lit "b.md"].
Example C57_example :
  outcome add_newline (fun _ _ o => o) two_files None (select_mode (fun l => l) false None (with_write files57)) (w_fs after_write) false
  /\ NoDup files57 /\ (forall p, In p files57 -> ~ restless add_newline two_files p).
Proof.
  split; [|split].
  - change (select_mode (fun l => l) false None (with_write files57)) with (RunParallel files57 true false).
    change (outcome add_newline (fun _ _ o => o) two_files None (RunParallel files57 true false) (w_fs after_write) (exit_failure false after_write)).
    apply out_parallel; apply C19_example.
  - constructor; [intros [K|[]]; discriminate|constructor; [intros []|constructor]].
  - intros p [<-|[<-|[]]] (s & out & E1 & E2 & E3); vm_compute in E1; injection E1 as <-; vm_compute in E2; injection E2 as <-; apply E3; reflexivity.
Qed.

(** It does happen: a tight list with code in an item (C45_tight_list_refuted)
    is written, and --check then fails. *)
Definition parse57 (s : str) : node :=
  Node NDocument (mkPos 1 1 9 9) (if seqb s (text_of lines45) then list45 true 2 5 else list45 false 3 6).
Definition fmt57 (s : str) : option str :=
  match format_with_warnings uni_ascii [] (fun _ => None) parse57 default_options (Wasm None) true s with Ok (out, _) => Some out | Panic => None end.
Theorem C57_check_after_write_refuted : exists s out, s = text_of lines45 /\ fmt57 s = Some out
  /\ let fs := disk [(lit "a.md", Text s)] in
     restless fmt57 fs (lit "a.md")
     /\ exists fs1 fs2, outcome fmt57 (fun _ _ o => o) fs None (select_mode (fun l => l) false None (with_write [lit "a.md"])) fs1 false
        /\ outcome fmt57 (fun _ _ o => o) fs1 None (select_mode (fun l => l) false None (with_check [lit "a.md"])) fs2 true.
Proof.
  exists (text_of lines45), text45. split; [reflexivity|].
  assert (F1 : fmt57 (text_of lines45) = Some text45) by (vm_compute; reflexivity).
  assert (F2 : fmt57 text45 = Some text45_again) by (vm_compute; reflexivity).
  assert (D1 : text_of lines45 <> text45) by (vm_compute; discriminate).
  assert (D2 : text45 <> text45_again) by (vm_compute; discriminate).
  split; [exact F1|]. cbv zeta. set (p := lit "a.md"). set (fs := disk [(p, Text (text_of lines45))]).
  split; [exists (text_of lines45), text45; split; [reflexivity|]; split; [exact F1|]; rewrite F2; intro K; apply D2; congruence|].
  set (n := List.length text45).
  set (fs1 := fs_set (fs_set fs p (Text [])) p (Text (firstn n text45))).
  set (w1 := mkWorld fs1 [(p, TDone)] false false [p] [p] []).
  set (w2 := mkWorld fs1 [(p, TDone)] false true [] [] []).
  exists fs1, fs1. split.
  - change (outcome fmt57 (fun _ _ o => o) fs None (RunParallel [p] true false) (w_fs w1) (exit_failure false w1)).
    apply out_parallel; [|unfold finished; cbn; auto].
    go (@nil (path * task)) p (@nil (path * task)). { eapply step_read. reflexivity. }
    go (@nil (path * task)) p (@nil (path * task)). { eapply step_open; [reflexivity|reflexivity|exact F1|exact D1]. }
    go (@nil (path * task)) p (@nil (path * task)). { apply step_write with (n := 0) (m := n); [vm_compute; lia|apply le_n]. }
    go (@nil (path * task)) p (@nil (path * task)). { apply step_close with (out := text45). }
    apply steps_refl.
  - change (outcome fmt57 (fun _ _ o => o) fs1 None (RunParallel [p] false true) (w_fs w2) (exit_failure true w2)).
    apply out_parallel; [|unfold finished; cbn; auto].
    go (@nil (path * task)) p (@nil (path * task)). { eapply step_read with (s := text45). unfold fs1, n. rewrite firstn_all. reflexivity. }
    go (@nil (path * task)) p (@nil (path * task)). { eapply step_check_differs; [reflexivity|exact F2|exact D2]. }
    apply steps_refl.
Qed.
Print Assumptions C57_check_after_write_refuted.
