(** Lemmas for [PropsFormatter]. *)
From Coq Require Import Bool Arith NArith Lia List.
From Verif Require Import Base FormatterModel SpecFormatter.
Import ListNotations.

Section Run.
Variable utf8 : list byte -> option str.
Variable cap timeout len : nat.
Variable prog : list act.

(** What the child has done so far. *)
Definition child_inv (f : fstate) : Prop :=
  List.length (f_out f) <= cap /\ List.length (f_err f) <= cap /\
  match f_exit f with
  | Some (c, t) => exit_code prog = Some c /\ f_out f = output_of prog /\ f_err f = errors_of prog /\ t <= f_now f
  | None => match f_caller f with
            | PReturned _ _ => True
            | _ => exit_code prog = exit_code (f_prog f) /\ output_of prog = f_out f ++ output_of (f_prog f) /\
                   errors_of prog = f_err f ++ errors_of (f_prog f)
            end
  end /\
  match f_caller f with
  | PWriting _ => f_wrote f = None
  | PPoll s _ => f_wrote f = Some s /\ s <= f_now f
  | PCollect => f_exit f <> None /\ f_wrote f <> None
  | PReturned t FTimeout => t <= f_now f /\ f_exit f = None /\ f_prog f = [] /\
      exists s, f_wrote f = Some s /\ s <= t /\ timeout <= t - s
  | PReturned t FStdin => t <= f_now f /\ f_exit f <> None
  | PReturned t r => t <= f_now f /\ f_wrote f <> None /\ exists c e, f_exit f = Some (c, e) /\ r = collect utf8 c (f_out f) (f_err f)
  end.

Lemma collect_cases : forall c o e,
  (c = 0 /\ exists s, utf8 o = Some s /\ collect utf8 c o e = FText s) \/
  (c = 0 /\ utf8 o = None /\ collect utf8 c o e = FInvalidUtf8) \/
  (c <> 0 /\ collect utf8 c o e = FNonZero c e).
Proof.
  intros c o e. unfold collect. destruct (Nat.eqb_spec c 0) as [->|H].
  - destruct (utf8 o) as [s|] eqn:E; eauto 6.
  - auto.
Qed.

Lemma child_inv_step : forall f f', child_inv f -> fstep utf8 cap timeout f f' -> child_inv f'.
Proof.
  intros f f' (H1 & H2 & H3 & H4) Hs. destruct Hs; unfold child_inv in *; cbn in *.
  all: split; [try exact H1; try (rewrite app_length; cbn; lia)|].
  all: split; [try exact H2; try (rewrite app_length; cbn; lia)|].
  all: split.
  all: try exact H3; try exact H4.
  { destruct (f_exit f) as [[c t]|]; auto. intuition lia. }
  { destruct (f_caller f) as [| | |t r]; try (intuition lia). destruct r; intuition lia. }
  { destruct x as [[c0 t0]|]; [exact H3|contradiction]. }
  { split; [lia|auto]. }
  { split; [reflexivity|lia]. }
  { destruct H4 as [-> H4]. split; [auto|discriminate]. }
  { exact I. }
  { destruct H4 as [-> H4]. repeat split; auto. exists s. auto. }
  { destruct H4 as [_ H4].
    destruct (collect_cases code o e) as [(_ & s & _ & E)|[(_ & _ & E)|(_ & E)]]; rewrite E;
      (split; [lia|split; [auto|exists code, t; rewrite E; auto]]). }
  all: destruct q as [| | |t r]; cbn in *; try exact I; try exact H3; try exact H4;
    try (destruct H3 as (A & B & C); split; [exact A|]; rewrite ?B, ?C, <- ?app_assoc; auto; fail);
    try (destruct H3 as (-> & A & B); rewrite app_nil_r in A, B; repeat split; auto; fail);
    try (split; [discriminate|tauto]).
  all: exfalso; destruct r;
    try (destruct H4 as (_ & _ & c0 & e0 & X & _); discriminate);
    try (destruct H4 as (_ & _ & X & _); discriminate);
    destruct H4 as (_ & X); contradiction.
Qed.

Lemma child_inv_runs : forall f, fruns utf8 cap timeout (spawned len prog) f -> child_inv f.
Proof.
  intros f H. remember (spawned len prog) as f0. induction H; subst.
  - unfold child_inv, spawned; cbn. repeat split; auto; lia.
  - eapply child_inv_step; eauto.
Qed.

(** Time. *)
Definition quick_inv (f : fstate) : Prop :=
  f_held f = false /\ no_fork (f_prog f) /\
  match f_caller f with
  | PWriting r => f_wrote f = None
  | PPoll s nx => f_wrote f = Some s /\ s <= f_now f <= nx /\ nx <= s + timeout + interval
  | PCollect => exists s, f_wrote f = Some s /\ f_now f <= s + timeout + interval
  | PReturned t r => match f_wrote f with Some s => t <= s + timeout + interval | None => r = FStdin end
  end.

Lemma quick_inv_step : forall f f', quick_inv f -> fstep utf8 cap timeout f f' -> quick_inv f'.
Proof.
  intros f f' (Hh & Hp & Hc) Hs. destruct Hs; unfold quick_inv, no_fork in *; cbn in *; try discriminate;
    try (exfalso; tauto);
    try (repeat split; auto; tauto).
  - split; auto. split; auto. unfold ready in H. destruct (f_caller f) as [r|s nx| |t r]; auto.
    + apply Nat.leb_gt in H. repeat split; try tauto; lia.
    + rewrite Hh in H. discriminate.
  - subst w. auto.
  - repeat split; auto; unfold interval; lia.
  - split; auto. split; auto. destruct Hc as (A & B & C). exists s. split; auto. lia.
  - split; auto. split; auto. destruct Hc as (-> & B & C). lia.
  - repeat split; try tauto; unfold interval; lia.
  - split; auto. split; auto. destruct Hc as (s & -> & C). exact C.
Qed.

Lemma quick_inv_runs : forall f, no_fork prog -> fruns utf8 cap timeout (spawned len prog) f -> quick_inv f.
Proof.
  intros f Hn H. remember (spawned len prog) as f0. induction H; subst.
  - unfold quick_inv, spawned; cbn. auto.
  - eapply quick_inv_step; eauto.
Qed.

(** With little input, writing takes no time. *)
Definition small_inv (f : fstate) : Prop :=
  match f_caller f with
  | PWriting r => f_now f = 0 /\ f_in f + r <= cap
  | PReturned _ FStdin => True
  | _ => f_wrote f = Some 0
  end.

Lemma small_inv_step : forall f f', small_inv f -> fstep utf8 cap timeout f f' -> small_inv f'.
Proof.
  intros f f' H Hs. destruct Hs; unfold small_inv in *; cbn in *; auto; try lia;
    try (destruct q; auto; lia).
  - destruct (f_caller f) as [r| | |t r] eqn:E; auto. exfalso. unfold ready in H0. rewrite E in H0.
    apply orb_false_iff in H0 as [H0 _]. apply orb_false_iff in H0 as [H0 H1].
    apply Nat.eqb_neq in H0. apply Nat.ltb_ge in H1. lia.
  - destruct H as [-> _]. reflexivity.
  - destruct (collect_cases code o e) as [(_ & s & _ & E)|[(_ & _ & E)|(_ & E)]]; rewrite E; auto.
Qed.

Lemma small_inv_runs : forall f, len <= cap -> fruns utf8 cap timeout (spawned len prog) f -> small_inv f.
Proof.
  intros f Hn H. remember (spawned len prog) as f0. induction H; subst.
  - unfold small_inv, spawned; cbn. auto.
  - eapply small_inv_step; eauto.
Qed.

(** Something can always happen: the caller moves, or time passes. *)
Lemma fprogress : forall f, child_inv f -> exists f', fstep utf8 cap timeout f f'.
Proof.
  intros f (_ & _ & _ & H). destruct (ready cap f) eqn:R.
  - destruct f as [n q p x i c o e h w]. unfold ready in R. cbn in *. destruct q as [r|s nx| |t r].
    + destruct r as [|r]; [eexists; apply f_written|].
      destruct x as [[c0 t0]|].
      * destruct h; cbn in R.
        -- rewrite orb_false_r in R. apply Nat.ltb_lt in R. eexists. apply f_write with (k := 1); auto; lia.
        -- eexists. apply f_broken_pipe; [lia|discriminate].
      * cbn in R. rewrite orb_false_r in R. apply Nat.ltb_lt in R. eexists. apply f_write with (k := 1); auto; lia.
    + apply Nat.leb_le in R. destruct x as [[c0 t0]|].
      * eexists. apply f_poll_exited; [auto|discriminate].
      * destruct (le_lt_dec timeout (n - s)); eexists; [now apply f_poll_timeout|now apply f_poll_again].
    + apply negb_true_iff in R. subst h. destruct x as [[c0 t0]|]; [|tauto]. eexists. apply f_collect.
    + discriminate.
  - eexists. now apply f_tick.
Qed.
End Run.
