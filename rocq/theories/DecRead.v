(** Decimal notation read back. *)
From Coq Require DecimalString DecimalNat.
From Coq Require Import Bool Arith NArith Ascii String Lia ZifyBool ZifyNat ZifyN List.
From Verif Require Import Base BaseFacts DecFacts.
Import ListNotations.

(** ** Reading a numeral back *)
From Verif Require Import SpecContext.
Definition rd (s : str) (a : N) : N := fold_left (fun a c => a * 10 + digit_value c)%N s a.

Lemma lit_string : forall a s, lit (String a s) = N_of_ascii a :: lit s.
Proof. reflexivity. Qed.
Lemma rd_uint : forall d acc,
  rd (lit (DecimalString.NilEmpty.string_of_uint d)) (N.of_nat acc) = N.of_nat (Nat.of_uint_acc d acc).
Proof.
  induction d; intro acc; [reflexivity|..]; cbn [DecimalString.NilEmpty.string_of_uint Nat.of_uint_acc]; rewrite lit_string;
    unfold rd; cbn [fold_left]; rewrite <- IHd; unfold rd; apply f_equal; rewrite ?Nat.tail_mul_spec;
    match goal with |- context [digit_value ?x] => let v := eval vm_compute in (digit_value x) in change (digit_value x) with v end; lia.
Qed.
Lemma dec_empty : forall n, dec n = lit (DecimalString.NilEmpty.string_of_uint (Nat.to_uint n)).
Proof.
  intro n. unfold dec, DecimalString.NilZero.string_of_uint. destruct (Nat.to_uint n) eqn:E; try reflexivity.
  exfalso. exact (to_uint_nonnil n E).
Qed.
Lemma dec_value : forall n, decimal_value (dec n) = N.of_nat n.
Proof.
  intro n. rewrite dec_empty. unfold decimal_value. pose proof (rd_uint (Nat.to_uint n) 0) as H. unfold rd in H.
  cbn [N.of_nat] in H. rewrite H. apply f_equal. apply (DecimalNat.Unsigned.of_to n).
Qed.
Lemma nzhead_not_zero : forall d x, Decimal.nzhead d <> Decimal.D0 x.
Proof. induction d; intros x H; cbn in H; try discriminate. exact (IHd _ H). Qed.
Lemma to_uint_zero : forall n x, Nat.to_uint n = Decimal.D0 x -> x = Decimal.Nil.
Proof.
  intros n x H. pose proof (DecimalNat.Unsigned.to_of (Nat.to_uint n)) as E.
  rewrite DecimalNat.Unsigned.of_to in E. rewrite H in E. unfold Decimal.unorm in E.
  destruct (Decimal.nzhead (Decimal.D0 x)) eqn:Z; try discriminate.
  - injection E as <-. reflexivity.
  - exfalso. exact (nzhead_not_zero _ _ Z).
Qed.
Lemma dec_numeral : forall n, numeral (dec n) (N.of_nat n).
Proof.
  intro n. split.
  - eapply Forall_impl; [|apply dec_digits]. intros c H. unfold is_ascii_digit in H. lia.
  - apply dec_value.
  - apply dec_nonempty.
  - intros r H. rewrite dec_empty in H. pose proof (to_uint_nonnil n) as Z. pose proof (to_uint_zero n) as Z0.
    destruct (Nat.to_uint n); try (exfalso; apply Z; reflexivity);
      cbn [DecimalString.NilEmpty.string_of_uint] in H; rewrite lit_string in H; try discriminate H.
    rewrite (Z0 u eq_refl) in H. injection H as <-. reflexivity.
Qed.

Lemma rd_lower : forall s a, (a * 10 ^ N.of_nat (List.length s) <= rd s a)%N.
Proof.
  induction s as [|c s IH]; intro a.
  - cbn. lia.
  - unfold rd. cbn [fold_left List.length]. etransitivity; [|apply IH].
    rewrite Nnat.Nat2N.inj_succ, N.pow_succ_r' . nia.
Qed.
Lemma numeral_length : forall s n k, numeral s n -> (0 < n)%N -> (n < 10 ^ N.of_nat k)%N -> List.length s <= k.
Proof.
  intros s n k [D V E Z] P L. destruct s as [|c s]; [contradiction|]. unfold decimal_value in V. cbn [fold_left] in V.
  assert (C : (1 <= digit_value c)%N).
  { destruct (N.eq_dec c 48) as [->|C].
    - rewrite (Z s eq_refl) in V. cbn in V. lia.
    - inversion D; subst. unfold digit_value. lia. }
  pose proof (rd_lower s (0 * 10 + digit_value c)%N) as H. unfold rd in H. rewrite V in H.
  cbn [List.length]. destruct (Nat.le_gt_cases (S (List.length s)) k) as [G|G]; [exact G|exfalso].
  assert (T : (10 ^ N.of_nat k <= 10 ^ N.of_nat (List.length s))%N) by (apply N.pow_le_mono_r; lia). nia.
Qed.
