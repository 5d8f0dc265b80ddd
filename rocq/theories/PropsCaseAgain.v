(** C52: a heading in sentence case stays as it is. *)
From Coq Require Import Bool Arith NArith Lia ZifyBool ZifyNat ZifyN String List.
From Verif Require Import Base BaseFacts OptsModel HeadingModel SpecHeading HeadingProof ParaProof SpecCase SpecSteady CaseAgain.
Import ListNotations.

(** C52: sentence case of sentence case is sentence case.  Full statement: for
    every text and all nouns.  Here: for letters with one capital and one small
    form; for nouns that do not end like possessives; for texts without nouns of
    several words, decades ('90s), and apostrophes before a capital S.  The
    refutations below show that the last three and the first are needed. *)
Theorem C52_sentence_case_again_partial : forall U PN user common lo up,
  simple_case U lo up -> listed U PN -> settled_nouns PN user ->
  forall text, settled_text U PN user common text ->
  to_sentence_case U PN user common (to_sentence_case U PN user common text) = to_sentence_case U PN user common text.
Proof. intros U PN user common lo up L HL HN text S0. eapply sentence_again; eassumption. Qed.
Print Assumptions C52_sentence_case_again_partial.

(** What is written for a heading is written again for the text in it. *)
Theorem C52_heading_again_partial : forall U PN o nouns commons lo up,
  simple_case U lo up -> listed U PN -> settled_nouns PN (heading_proper_nouns o ++ nouns) -> heading_sentence_case o = true ->
  forall level text, settled_text U PN (heading_proper_nouns o ++ nouns) (heading_common_nouns o ++ commons) text ->
  heading_output U PN o nouns commons level (to_sentence_case U PN (heading_proper_nouns o ++ nouns) (heading_common_nouns o ++ commons) text)
  = heading_output U PN o nouns commons level text.
Proof.
  intros U PN o nouns commons lo up L HL HN Sc level text S0. unfold heading_output. rewrite Sc. cbv zeta.
  rewrite (C52_sentence_case_again_partial U PN (heading_proper_nouns o ++ nouns) (heading_common_nouns o ++ commons) lo up L HL HN text S0). reflexivity.
Qed.
Print Assumptions C52_heading_again_partial.

(** *** The ASCII letters *)
Lemma ascii_simple : simple_case uni_ascii ascii_lower ascii_upper.
Proof.
  constructor; try reflexivity;
    try (intros c; unfold uni_ascii; cbn [u_alpha u_alnum u_upper u_lower_str u_upper_chr]; unfold is_ascii_alnum, ascii_is_alpha, is_ws, ascii_lower, ascii_upper, is_ascii_upper, is_ascii_lower, is_ascii_digit;
      repeat match goal with |- context [if ?b then _ else _] => destruct b eqn:? end; lia).
  - intros c I. cbn [In] in I. repeat (destruct I as [<-|I]; [split; reflexivity|]). destruct I.
  - split; reflexivity.
Qed.

(** A way to see that a text is settled. *)
Definition looks_settled (nouns : list str) (t : str) : bool :=
  negb (contains_char c_fffd t)
  && negb (contains_sub [c_sq; 83%N] t) && negb (contains_sub [c_rsq; 83%N] t)
  && forallb (fun d => negb (contains_sub [c_sq; d] t)) (map N.of_nat (seq 48 10))
  && forallb (fun n => negb (contains_char c_sp n)
       || forallb (fun i => negb (seqb (map iron (map ascii_lower (firstn (List.length n) (skipn i t)))) (map iron (map ascii_lower (map ascii_lower n))))) (seq 0 (S (List.length t)))) nouns.
Lemma looks_settled_ok : forall PN user common t, looks_settled (map fst PN ++ user) t = true -> settled_text uni_ascii PN user common t.
Proof.
  intros PN user common t H. unfold looks_settled in H. repeat (apply andb_true_iff in H; let X := fresh "H" in destruct H as [H X]).
  apply negb_true_iff in H, H2, H3. split; [apply contains_char_false; exact H|].
  assert (C : forall x s, contains_sub x s = false -> forall a b, s <> a ++ x ++ b).
  { intros x s E a b E'. assert (contains_sub x s = true) by (apply contains_true; exists a, b; exact E'). congruence. }
  split; [|split].
  - intros a q b [->| ->] E; [exact (C _ _ H3 a b E)|exact (C _ _ H2 a b E)].
  - intros a b E (x & y & r & -> & Dx & _). rewrite forallb_forall in H1. 
    assert (I : In x (map N.of_nat (seq 48 10))).
    { apply in_map_iff. exists (N.to_nat x). split; [apply N2Nat.id|]. apply in_seq. unfold is_ascii_digit in Dx. lia. }
    specialize (H1 x I). apply negb_true_iff in H1. exact (C _ _ H1 a (y :: 115%N :: r) E).
  - intros n a b c In_n Sp _ E Lb _ _ K. rewrite forallb_forall in H0. specialize (H0 n In_n). apply orb_true_iff in H0. destruct H0 as [H0|H0].
    { apply negb_true_iff in H0. apply contains_char_false in H0. exact (H0 Sp). }
    rewrite forallb_forall in H0. specialize (H0 (List.length a)). rewrite negb_true_iff in H0.
    assert (B : firstn (List.length n) (skipn (List.length a) t) = b).
    { rewrite E, skipn_app, skipn_all, Nat.sub_diag. cbn [skipn app]. cbn [uni_ascii u_lower_str] in Lb. rewrite map_length in Lb. rewrite <- Lb, firstn_app, firstn_all, Nat.sub_diag. cbn [firstn]. apply app_nil_r. }
    rewrite B in H0. assert (S0 : seqb (map iron (map ascii_lower b)) (map iron (map ascii_lower (map ascii_lower n))) = true) by (apply seqb_true; exact K).
    rewrite H0 in S0; [discriminate|]. apply in_seq. rewrite E, !app_length. lia.
Qed.
Definition C52_list : list (str * str) := map (fun n => (n, map ascii_lower n)) [lit "GitHub"; lit "Windows"; lit "Deno"; lit "iPhone"; lit "GitHub Actions"].
Definition C52_user : list str := [lit "O'Reilly"; lit "Foo-Bar"].
Definition C52_text : str := lit "the GITHUB-Based (deno) 'Quick Start: I'M Here' for o'reilly's iphone USERS: Foo-Bar/And `Code Here` ""a B"" ""a b Cd".
Definition C52_case : str -> str := to_sentence_case uni_ascii C52_list C52_user [lit "windows"].
Example C52_example : settled_text uni_ascii C52_list C52_user [lit "windows"] C52_text
  /\ C52_case C52_text = lit "The GITHUB-based (Deno) " ++ c_lsq :: lit "Quick start: I'M here" ++ c_rsq :: lit " for O'Reilly's iPhone USERS: Foo-bar/and `Code Here` " ++ c_ldq :: lit "a B" ++ c_rdq :: lit " " ++ c_ldq :: lit "a b cd"
  /\ C52_case (C52_case C52_text) = C52_case C52_text.
Proof.
  split; [apply looks_settled_ok; vm_compute; reflexivity|]. split; [vm_compute; reflexivity|].
  apply (C52_sentence_case_again_partial uni_ascii C52_list C52_user [lit "windows"] ascii_lower ascii_upper ascii_simple).
  - repeat constructor.
  - intros n I. split; [intros ->; vm_compute in I; repeat (destruct I as [I|I]; [discriminate I|]); destruct I|].
    intros r q c Mq Hc E. assert (Sf : exists s, In s [[c_sq; 115%N]; [c_rsq; 115%N]; [c_sq; 83%N]; [c_rsq; 83%N]] /\ ends_with s n = true).
    { exists [q; c]. split; [destruct Mq as [->| ->], Hc as [->| ->]; cbn [In]; tauto|]. rewrite E. unfold ends_with. rewrite (proj2 (strip_suffix_some _ _ _) eq_refl). reflexivity. }
    destruct Sf as (s & Is & Es). 
    assert (K : forallb (fun n => forallb (fun s => negb (ends_with s n)) [[c_sq; 115%N]; [c_rsq; 115%N]; [c_sq; 83%N]; [c_rsq; 83%N]]) (map fst C52_list ++ C52_user) = true) by (vm_compute; reflexivity).
    rewrite forallb_forall in K. specialize (K n I). rewrite forallb_forall in K. specialize (K s Is). rewrite Es in K. discriminate.
  - apply looks_settled_ok. vm_compute. reflexivity.
Qed.

(** *** Where a second run changes a heading again *)
(** Capitals as of Python's [str.title]: the S is made small first, and the noun
    found the second time. *)
Theorem C52_capital_s_refuted : exists text,
  C52_case text = lit "Why github's api" /\ C52_case (C52_case text) = lit "Why GitHub's api".
Proof. exists (lit "Why Github'S Api"). vm_compute. auto. Qed.
Print Assumptions C52_capital_s_refuted.
(** A noun of several words with an apostrophe: the second run takes it for an
    opening quotation mark, and finds a quotation that never ends. *)
Theorem C52_long_noun_refuted : exists noun text, let f := to_sentence_case uni_ascii [] [noun] [] in
  f text = lit "Some Rock 'n Roll" /\ f (f text) <> f text.
Proof. exists (lit "Rock 'n Roll"), (lit "Some rock " ++ c_rsq :: lit "n roll"). vm_compute. split; [reflexivity|discriminate]. Qed.
Print Assumptions C52_long_noun_refuted.
(** A decade that is a noun. *)
Theorem C52_decade_refuted : exists noun text, let f := to_sentence_case uni_ascii [] [noun] [] in
  f text = lit "The '90S" /\ f (f text) = lit "The " ++ c_lsq :: lit "90S".
Proof. exists (lit "90S"), (lit "The '90s"). vm_compute. auto. Qed.
Print Assumptions C52_decade_refuted.
(** A letter whose capital is two characters, the first of them no capital:
    U+0149, in capitals U+02BC and N. *)
Definition uni_apostrophe_n : Uni := {|
  u_alpha := fun c => ascii_is_alpha c || N.eqb c 329 || N.eqb c 700;
  u_alnum := fun c => is_ascii_alnum c || N.eqb c 329 || N.eqb c 700;
  u_upper := is_ascii_upper;
  u_lower_str := map ascii_lower;
  u_upper_chr := fun c => if N.eqb c 329 then [700%N; 78%N] else [ascii_upper c];
  u_width := fun s => List.length s
|}.
Theorem C52_letter_refuted : let f := to_sentence_case uni_apostrophe_n [] [] [] in
  f (329%N :: lit " Dag") = 700%N :: lit "N dag" /\ f (f (329%N :: lit " Dag")) = 700%N :: lit "n dag".
Proof. vm_compute. auto. Qed.
Print Assumptions C52_letter_refuted.
