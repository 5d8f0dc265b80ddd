(** C64: builds with and without overflow checks agree. *)
From Coq Require Import Bool Arith NArith Lia ZifyBool ZifyNat ZifyN String List.
From Verif Require Import Base BaseFacts OptsModel WrapModel CodeModel TableModel HeadingModel AstModel StateModel
  InlineModel WarnModel SerModel SpecContext SpecSafe BuildProof PropsSafe.
Import ListNotations.

Section Build.
Variable U : Uni.
Variable PN : list (str * str).
Variable ENT : str -> option str.
Variable o : Options.
Variable B : backend.

(** C64: if a build with overflow checks ends without a panic, a build without
    them does the same, with the same formatter calls and warnings. *)
Theorem C64_root : forall src nl n s,
  serialize_root U PN ENT o B src nl true n = Ok s -> serialize_root U PN ENT o B src nl false n = Ok s.
Proof.
  intros src nl n s E. unfold serialize_root in *. destruct (tame_serialize U PN ENT o B src nl n None init_st) as [P|P]; [rewrite E in P; discriminate|].
  rewrite <- P. exact E.
Qed.
Theorem C64_format : forall parse input r,
  format_with_warnings U PN ENT parse o B true input = Ok r -> format_with_warnings U PN ENT parse o B false input = Ok r.
Proof.
  intros parse input r E. unfold format_with_warnings in *. destruct (is_nil input); [exact E|].
  destruct (serialize_root U PN ENT o B (lines input) (ends_with_newline input) true (parse input)) as [s|] eqn:R; [|discriminate].
  rewrite (C64_root _ _ _ _ R). exact E.
Qed.
(** So a build without checks panics only where one with checks does. *)
Corollary C64_panics : forall parse input,
  format_with_warnings U PN ENT parse o B false input = Panic -> format_with_warnings U PN ENT parse o B true input = Panic.
Proof.
  intros parse input E. destruct (format_with_warnings U PN ENT parse o B true input) as [r|] eqn:R; [|reflexivity].
  apply C64_format in R. congruence.
Qed.
(** For the documents of C31 they are the same. *)
Corollary C64_sound : forall parse input, sound U o (lines input) true (parse input) ->
  format_with_warnings U PN ENT parse o B false input = format_with_warnings U PN ENT parse o B true input.
Proof.
  intros parse input S. destruct (format_with_warnings U PN ENT parse o B true input) as [r|] eqn:R; [apply C64_format; exact R|].
  exfalso. unfold format_with_warnings in R. destruct (is_nil input); [discriminate|].
  destruct (C31_no_panic_partial U PN ENT o B (lines input) (ends_with_newline input) true (parse input) S) as [s E].
  rewrite E in R. discriminate.
Qed.
End Build.
Print Assumptions C64_root.
Print Assumptions C64_format.
Print Assumptions C64_panics.
Print Assumptions C64_sound.

(** The document of C31 meets the condition at width 80; at width 8 only the
    build with checks panics: the builds are not the same. *)
Definition input64 : str := lit "a[^note]

[^note]: b
".
Definition run64 (width : nat) (checks : bool) : res (str * list warning) :=
  format_with_warnings uni_ascii [] (fun _ => None) (fun _ => tree31) (opts31 width) (Wasm None) checks input64.
Example C64_witness :
  sound uni_ascii (opts31 80) (lines input64) true tree31
  /\ run64 80 true = Ok (input64, []) /\ run64 80 false = run64 80 true
  /\ run64 8 true = Panic /\ run64 8 false = Ok (input64, []).
Proof.
  split; [exact C31_sound|]. split; [vm_compute; reflexivity|]. split; [apply C64_sound; exact C31_sound|]. split; vm_compute; reflexivity.
Qed.
