(** C22: running an external formatter. *)
From Coq Require Import Bool Arith NArith Lia List.
From Verif Require Import Base FormatterModel SpecFormatter FormatterProof.
Import ListNotations.

(** C22.  Full claim: every run returns within the timeout plus one polling
    interval.  Proved for a formatter that leaves no background process with
    the pipes: once the code has been written, at time [s], the function has
    returned by [s + timeout + 50]; and [s] is 0 when the code fits into the
    pipe.  Missing: code larger than the pipe, background processes. *)
Theorem C22_bounded_partial :
  forall utf8 cap timeout len prog f,
    no_fork prog -> fruns utf8 cap timeout (spawned len prog) f ->
    (forall t r, f_caller f = PReturned t r -> r <> FStdin ->
       exists s, f_wrote f = Some s /\ t <= s + timeout + 50) /\
    (forall s, f_wrote f = Some s -> s + timeout + 50 < f_now f -> exists t r, f_caller f = PReturned t r) /\
    (len <= cap ->
       (forall s, f_wrote f = Some s -> s = 0) /\
       (timeout + 50 < f_now f -> exists t r, f_caller f = PReturned t r)).
Proof.
  intros utf8 cap timeout len prog f Hn H.
  destruct (quick_inv_runs _ _ _ _ _ _ Hn H) as (Q1 & Q2 & Q3).
  assert (P2 : forall s, f_wrote f = Some s -> s + timeout + interval < f_now f -> exists t r, f_caller f = PReturned t r).
  { intros s Hw Ht. destruct (f_caller f) as [r|s' nx| |t r].
    - congruence.
    - exfalso. destruct Q3 as (A & B & C). assert (s' = s) by congruence. lia.
    - exfalso. destruct Q3 as (s' & A & B). assert (s' = s) by congruence. lia.
    - eauto. }
  split; [|split; [exact P2|]].
  - intros t r E Hr. rewrite E in Q3. destruct (f_wrote f) as [s|]; [eauto|contradiction].
  - intros Hl. pose proof (small_inv_runs _ _ _ _ _ _ Hl H) as S.
    pose proof (child_inv_runs _ _ _ _ _ _ H) as (_ & _ & _ & C). unfold small_inv in S.
    assert (W0 : forall s, f_wrote f = Some s -> f_wrote f = Some 0 \/ exists t, f_caller f = PReturned t FStdin).
    { intros s Hs. destruct (f_caller f) as [r|s' nx| |t r]; try congruence; auto.
      destruct r; auto. right. eauto. }
    split.
    + intros s Hs. destruct (W0 s Hs) as [X|(t & X)]; [congruence|].
      rewrite X in Q3, C. rewrite Hs in Q3.
      (* the broken pipe happens before anything is recorded *)
      exfalso. clear - H X Hs. revert t s X Hs. remember (spawned len prog) as f0.
      assert (G : match f_caller f with PWriting _ => f_wrote f = None | PReturned _ FStdin => f_wrote f = None | _ => True end).
      { induction H as [f|f1 f2 f3 H1 IH Hs]; subst; [reflexivity|]. specialize (IH eq_refl).
        destruct Hs; cbn in *; auto; try (destruct q; auto; fail).
        destruct (collect_cases utf8 code o e) as [(_ & s & _ & E)|[(_ & _ & E)|(_ & E)]]; rewrite E; auto. }
      intros t s X Hs. rewrite X in G. congruence.
    + intros Ht. destruct (f_caller f) as [r|s' nx| |t r] eqn:E.
      * lia.
      * apply (P2 0); auto.
      * apply (P2 0); auto.
      * eauto.
Qed.
Print Assumptions C22_bounded_partial.

(** What is returned, for every process behaviour: text only after an exit with
    code 0, and then it is everything the formatter wrote; a timeout only if
    the formatter had not exited within the timeout. *)
Theorem C22_result_is_complete :
  forall utf8 cap timeout len prog f t r,
    fruns utf8 cap timeout (spawned len prog) f -> f_caller f = PReturned t r ->
    match r with
    | FText s => exit_code prog = Some 0 /\ utf8 (output_of prog) = Some s
    | FInvalidUtf8 => exit_code prog = Some 0 /\ utf8 (output_of prog) = None
    | FNonZero c err => c <> 0 /\ exit_code prog = Some c /\ err = errors_of prog
    | FTimeout => f_exit f = None /\ exists s, f_wrote f = Some s /\ s + timeout <= t
    | FStdin => f_exit f <> None
    end.
Proof.
  intros utf8 cap timeout len prog f t r H E.
  destruct (child_inv_runs _ _ _ _ _ _ H) as (_ & _ & A & B). rewrite E in B.
  destruct r as [s| |c err| |].
  - destruct B as (_ & _ & c & e & X & Y). rewrite X in A. destruct A as (A1 & A2 & A3 & _).
    destruct (collect_cases utf8 c (f_out f) (f_err f)) as [(-> & s' & U & V)|[(_ & _ & V)|(_ & V)]]; rewrite V in Y; try discriminate.
    injection Y as <-. rewrite <- A2. auto.
  - destruct B as (_ & _ & c & e & X & Y). rewrite X in A. destruct A as (A1 & A2 & A3 & _).
    destruct (collect_cases utf8 c (f_out f) (f_err f)) as [(-> & s' & U & V)|[(-> & U & V)|(_ & V)]]; rewrite V in Y; try discriminate.
    rewrite <- A2. auto.
  - destruct B as (_ & _ & c' & e & X & Y). rewrite X in A. destruct A as (A1 & A2 & A3 & _).
    destruct (collect_cases utf8 c' (f_out f) (f_err f)) as [(-> & s' & U & V)|[(-> & U & V)|(N & V)]]; rewrite V in Y; try discriminate.
    injection Y as -> ->. auto.
  - destruct B as (_ & B1 & _ & s & B2 & B3 & B4). split; auto. exists s. split; auto. lia.
  - tauto.
Qed.
Print Assumptions C22_result_is_complete.

(** ... and there is always something that can happen next. *)
Theorem C22_never_stuck :
  forall utf8 cap timeout len prog f, fruns utf8 cap timeout (spawned len prog) f ->
    exists f', fstep utf8 cap timeout f f'.
Proof. intros. eapply fprogress. eapply child_inv_runs; eauto. Qed.
Print Assumptions C22_never_stuck.

Lemma fruns_left : forall utf8 cap timeout f1 f2 f3, fstep utf8 cap timeout f1 f2 ->
  fruns utf8 cap timeout f2 f3 -> fruns utf8 cap timeout f1 f3.
Proof. intros u c t f1 f2 f3 H1 H2. induction H2; eauto using fruns_refl, fruns_cons. Qed.
Lemma fruns_trans : forall utf8 cap timeout f1 f2 f3, fruns utf8 cap timeout f1 f2 ->
  fruns utf8 cap timeout f2 f3 -> fruns utf8 cap timeout f1 f3.
Proof. intros u c t f1 f2 f3 H1 H2. induction H2; eauto using fruns_cons. Qed.
Lemma ticks : forall utf8 cap timeout k n q p x i c o e h w,
  (forall m, ready cap (mkF (n + m) q p x i c o e h w) = false \/ k <= m) ->
  fruns utf8 cap timeout (mkF n q p x i c o e h w) (mkF (n + k) q p x i c o e h w).
Proof.
  intros u cp tm k n q p x i c o e h w H.
  assert (G : forall j, j <= k -> fruns u cp tm (mkF n q p x i c o e h w) (mkF (n + j) q p x i c o e h w)).
  { induction j as [|j IH]; intros Hj; [rewrite Nat.add_0_r; apply fruns_refl|].
    eapply fruns_cons; [apply IH; lia|]. rewrite Nat.add_succ_r.
    apply (f_tick u cp tm (mkF (n + j) q p x i c o e h w)).
    destruct (H j); [auto|lia]. }
  apply G. lia.
Qed.

(** A formatter that reads three bytes and answers "ok" after 60 ms: the caller
    sees the exit at its third look, after 100 ms. *)
Definition small_prog := [ARead; ARead; ARead; AOut 111%N; AOut 107%N; AExit 0].
Example C22_example :
  no_fork small_prog /\
  exists f, fruns (fun b => Some b) 4 1000 (spawned 3 small_prog) f /\
    f_caller f = PReturned 100 (FText [111; 107]%N) /\ f_exit f = Some (0, 60).
Proof.
  split; [intros H; cbn in H; intuition discriminate|].
  eexists. split; [|split; [|]].
  - eapply fruns_left; [apply f_write with (k := 3); auto|].
    eapply fruns_left; [apply f_written|].
    eapply fruns_left; [apply f_poll_again; [unfold interval; lia|apply Nat.ltb_lt; reflexivity]|].
    do 3 (eapply fruns_left; [apply f_read|]).
    eapply fruns_trans; [apply (ticks _ _ _ 50)|].
    { intros m. cbn [ready f_caller f_now]. unfold interval. destruct (le_lt_dec 50 m); [auto|left; apply Nat.leb_gt; lia]. }
    eapply fruns_left; [apply f_poll_again; [unfold interval; lia|apply Nat.ltb_lt; reflexivity]|].
    eapply fruns_trans; [apply (ticks _ _ _ 10)|].
    { intros m. cbn [ready f_caller f_now]. unfold interval. destruct (le_lt_dec 50 m); [right; lia|left; apply Nat.leb_gt; lia]. }
    do 2 (eapply fruns_left; [apply f_out_byte; cbn; lia|]).
    eapply fruns_left; [apply f_exit_|].
    eapply fruns_trans; [apply (ticks _ _ _ 40)|].
    { intros m. cbn [ready f_caller f_now]. unfold interval. destruct (le_lt_dec 40 m); [auto|left; apply Nat.leb_gt; lia]. }
    eapply fruns_left; [apply f_poll_exited; [unfold interval; lia|discriminate]|].
    eapply fruns_left; [apply f_collect|].
    apply fruns_refl.
  - reflexivity.
  - reflexivity.
Qed.

(** Refuted, first way.  A formatter that does not read its input: with code
    larger than the pipe, [write_all] blocks before the clock is started, and
    the function never returns, whatever the timeout. *)
Theorem C22_blocked_write_refuted :
  exists utf8 cap len prog, no_fork prog /\ forall timeout T,
    exists f, fruns utf8 cap timeout (spawned len prog) f /\ T <= f_now f /\
      forall f' t r, fruns utf8 cap timeout f f' -> f_caller f' <> PReturned t r.
Proof.
  exists (fun b => Some b), 2, 3, []. split; [intros []|]. intros timeout T.
  exists (mkF (0 + T) (PWriting 1) [] None 2 false [] [] false None). split; [|split; [cbn; lia|]].
  - eapply fruns_left; [apply f_write with (k := 2); auto|].
    apply (ticks _ _ _ T 0 (PWriting 1)). intros m. left. reflexivity.
  - intros f' t r H.
    assert (G : f_caller f' = PWriting 1 /\ f_prog f' = [] /\ f_exit f' = None /\ f_in f' = 2).
    { remember (mkF (0 + T) (PWriting 1) [] None 2 false [] [] false None) as f0.
      induction H as [f|f1 f2 f3 H1 IH Hs]; subst; [cbn; auto|].
      destruct (IH eq_refl) as (A & B & C & D). destruct Hs; cbn in *; subst; try discriminate; auto.
      injection A as ->. lia. injection A as ->. contradiction. }
    destruct G as (-> & _). discriminate.
Qed.
Print Assumptions C22_blocked_write_refuted.

(** Refuted, second way.  A formatter that exits at once but leaves a
    background process with its stdout: reading the rest of the output waits
    for that process, however long. *)
Theorem C22_background_process_refuted :
  exists utf8 cap len prog, len <= cap /\ forall timeout T, 0 < timeout ->
    exists f, fruns utf8 cap timeout (spawned len prog) f /\ T <= f_now f /\
      f_exit f = Some (0, 0) /\ f_caller f = PCollect.
Proof.
  exists (fun b => Some b), 2, 0, [AFork; AExit 0]. split; [lia|]. intros timeout T Ht.
  exists (mkF (0 + T) PCollect [] (Some (0, 0)) 0 true [] [] true (Some 0)).
  split; [|cbn; repeat split; lia].
  eapply fruns_left; [apply f_written|].
  eapply fruns_left; [apply f_fork|].
  eapply fruns_left; [apply f_exit_|].
  eapply fruns_left; [apply f_poll_exited; [lia|discriminate]|].
  apply (ticks _ _ _ T 0 PCollect). intros m. left. reflexivity.
Qed.
Print Assumptions C22_background_process_refuted.

(** Refuted, third way ("every output size").  The output is read only after
    the exit, so a formatter whose output does not fit into the pipe never gets
    to its exit: its result is never text, whatever the timeout. *)
Theorem C22_large_output_refuted :
  forall cap, exists prog, no_fork prog /\ exit_code prog = Some 0 /\ List.length (output_of prog) = S cap /\
    forall utf8 timeout len f t s, fruns utf8 cap timeout (spawned len prog) f -> f_caller f <> PReturned t (FText s).
Proof.
  intros cap. exists (repeat (AOut 120%N) (S cap) ++ [AExit 0]).
  assert (E : forall n, exit_code (repeat (AOut 120%N) n ++ [AExit 0]) = Some 0 /\
     output_of (repeat (AOut 120%N) n ++ [AExit 0]) = repeat 120%N n).
  { induction n as [|n [A B]]; cbn; auto. now rewrite B. }
  destruct (E (S cap)) as [E1 E2].
  split; [|split; [exact E1|split; [rewrite E2; apply repeat_length|]]].
  - intros H. apply in_app_or in H as [H|[H|[]]]; [|discriminate]. apply repeat_spec in H. discriminate.
  - intros utf8 timeout len f t s H X.
    destruct (child_inv_runs _ _ _ _ _ _ H) as (A & _ & B & C). rewrite X in C.
    destruct C as (_ & _ & c & e & C & _). rewrite C in B. destruct B as (_ & B & _).
    rewrite B, E2, repeat_length in A. lia.
Qed.
Print Assumptions C22_large_output_refuted.
