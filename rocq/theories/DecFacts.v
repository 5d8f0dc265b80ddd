(** Decimal notation: [dec n] is a non-empty string of ASCII digits, and
    different numbers are written differently. *)
From Coq Require DecimalString DecimalNat.
From Coq Require Import Bool Arith NArith Ascii String Lia List.
From Verif Require Import Base BaseFacts.
Import ListNotations.

Definition is_digit_str (s : str) : Prop := Forall (fun c => is_ascii_digit c = true) s.

Lemma uint_digits : forall d, is_digit_str (lit (DecimalString.NilEmpty.string_of_uint d)).
Proof. induction d; unfold lit in *; cbn; constructor; auto; reflexivity. Qed.

Lemma dec_digits : forall n, is_digit_str (dec n).
Proof.
  intros n. unfold dec, DecimalString.NilZero.string_of_uint.
  destruct (Nat.to_uint n) eqn:E; try apply uint_digits. repeat constructor.
Qed.

Lemma dec_nonempty : forall n, dec n <> [].
Proof.
  intros n. unfold dec, DecimalString.NilZero.string_of_uint, lit.
  destruct (Nat.to_uint n); cbn; discriminate.
Qed.

Lemma to_uint_nonnil : forall n, Nat.to_uint n <> Decimal.Nil.
Proof.
  intros n H. pose proof (DecimalNat.Unsigned.of_to n) as E.
  pose proof (DecimalNat.Unsigned.to_of (Nat.to_uint n)) as E2. rewrite E in E2.
  rewrite H in E2. discriminate E2.
Qed.

Lemma lit_inj : forall a b, lit a = lit b -> a = b.
Proof.
  intros a b H. unfold lit in H.
  assert (L : list_ascii_of_string a = list_ascii_of_string b).
  { revert H. generalize (list_ascii_of_string a) (list_ascii_of_string b).
    induction l as [|x l IH]; intros [|y l0] H; cbn in H; try discriminate; auto.
    injection H as H1 H2. f_equal; [|auto].
    rewrite <- (ascii_N_embedding x), <- (ascii_N_embedding y). congruence. }
  rewrite <- (string_of_list_ascii_of_string a), <- (string_of_list_ascii_of_string b). congruence.
Qed.

Lemma dec_inj : forall m n, dec m = dec n -> m = n.
Proof.
  intros m n H. unfold dec in H. apply lit_inj in H.
  apply (f_equal DecimalString.NilZero.uint_of_string) in H.
  rewrite !DecimalString.NilZero.usu in H by apply to_uint_nonnil.
  injection H as H. apply DecimalNat.Unsigned.to_uint_inj. exact H.
Qed.
