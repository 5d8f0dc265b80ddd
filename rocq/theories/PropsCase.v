(** C51: sentence case changes each word of a heading as documented. *)
From Coq Require Import Bool Arith NArith Lia String List.
From Verif Require Import Base BaseFacts OptsModel HeadingModel SpecHeading HeadingProof SpecCase CaseProof.
Import ListNotations.

Section C51.
Variable U : Uni.
Variable PN : list (str * str).
Variables user common : list str.

(** C51, for every text in which no noun of several words stands: cut at the
    backticks, with the quotation marks turned and the quotations found, each
    word is written as SpecCase says.  Code spans stay.  (Stretches between
    quotations in which a noun of several words stands, or U+FFFD, may be
    anything here; C30 speaks about them.)

    The hypotheses are facts of the Unicode database: 's' is a letter and a
    period is none. *)
Theorem C51_sentence_case_partial :
  u_alpha U 115%N = true -> u_alpha U c_dot = false ->
  forall text, sentence U PN user common true (pieces text) (to_sentence_case U PN user common text).
Proof. intros A B text. apply sentence_case_ok; assumption. Qed.

(** The same for a heading without backticks and quotation marks: the first word
    gets a capital, the others none, unless they are all capitals, acronyms, the
    pronoun I, proper nouns, or stand behind a delimiter. *)
Theorem C51_plain_heading : forall text,
  u_alpha U 115%N = true -> u_alpha U c_dot = false ->
  Forall (fun c => ~ In c [c_bt; c_sq; c_dq; c_lsq; c_ldq]) text -> unnamed U PN user common text ->
  exists cs first, chunks text cs /\ spoken U PN user common true false cs (to_sentence_case U PN user common text) first.
Proof.
  intros text A B F Un. pose proof (C51_sentence_case_partial A B text) as S0.
  assert (P : forall s cur, Forall (fun c => ~ In c [c_bt; c_sq; c_dq; c_lsq; c_ldq]) s -> code_pieces false cur s = [(false, rev cur ++ s)]).
  { clear. induction s as [|c s IH]; intros cur F; cbn [code_pieces]; [rewrite app_nil_r; reflexivity|]. inversion F as [|x l X L]; subst.
    destruct (N.eqb_spec c 96) as [->|_]; [exfalso; apply X; left; reflexivity|]. rewrite (IH _ L). cbn [rev]. rewrite <- app_assoc. reflexivity. }
  unfold pieces in S0. rewrite (P _ [] F) in S0. cbn [rev app] in S0. clear P.
  inversion S0 as [| |first t t' l o f l' out T C Sd Sn E1 E2 E3]; subst. inversion Sn; subst.
  assert (t' = text).
  { clear - F T. remember (@None char) as pv. clear Heqpv. revert pv t' T. generalize false. induction text as [|c r IH]; intros op pv t' T; [inversion T; reflexivity|].
    inversion F as [|x l X L]; subst.
    inversion T; subst; try (exfalso; apply X; cbn [In]; tauto). f_equal. eapply IH; [exact L|eassumption]. }
  subst t'.
  assert (N : forall d, ~ In (left_mark d) text).
  { intros d I. rewrite Forall_forall in F. apply (F _ I). destruct d; cbn [left_mark In]; tauto. }
  assert (l = plain text).
  { inversion C as [t0 U0 E|t0 d q r l0 U0 N0 C0 E|t0 d q U0 N0 E]; subst; [reflexivity| |]; exfalso; apply (N d); apply in_or_app; right; left; reflexivity. }
  subst l. rewrite app_nil_r. destruct text as [|c r].
  - inversion Sd; subst. exists [], true. split; constructor.
  - cbn [plain] in Sd. inversion Sd as [|ins fi t0 l0 o0 f0 o2 f2 Hp Hs| ]; subst. inversion Hs; subst. rewrite app_nil_r.
    destruct (Hp Un) as (cs & Cc & Sp). exists cs, f. auto.
Qed.
End C51.
Print Assumptions C51_sentence_case_partial.
Print Assumptions C51_plain_heading.

(** *** Examples *)
Definition case_nouns : list (str * str) := [(lit "TypeScript", lit "typescript"); (lit "GitHub", lit "github"); (lit "Go", lit "go")].
Definition in_case (s : str) : str := to_sentence_case uni_ascii case_nouns [lit "MyTool"] [lit "go"] s.
Example C51_example :
  in_case (lit "Working With JSON APIs") = lit "Working with JSON APIs"
  /\ in_case (lit "Using `MyClass` In Code") = lit "Using `MyClass` in code"
  /\ in_case (lit "what i'Ve Done With (typescript) And Mytool's U.S.A. Release: Where To Go") = lit "What I've done with (TypeScript) and MyTool's U.S.A. release: Where to go"
  /\ in_case (lit "JSON-Rpc/HTTP, the GITHUB Way; 'Tis the '90s") = lit "JSON-rpc/http, the GITHUB way; " ++ c_lsq :: lit "tis the '90s"
  /\ in_case (lit "The ""Big Picture"" And the ""small Print""") = lit "The " ++ c_ldq :: lit "Big picture" ++ c_rdq :: lit " and the " ++ c_ldq :: lit "small Print" ++ [c_rdq].
Proof. vm_compute. repeat split; reflexivity. Qed.

(** The examples are ones of the theorem. *)
Example C51_plain_example :
  Forall (fun c => ~ In c [c_bt; c_sq; c_dq; c_lsq; c_ldq]) (lit "Working With JSON APIs: Part Two")
  /\ unnamed uni_ascii case_nouns [lit "MyTool"] [lit "go"] (lit "Working With JSON APIs: Part Two").
Proof.
  split.
  - apply Forall_forall. intros c I J. vm_compute in I, J. repeat (destruct I as [<-|I]; [repeat (destruct J as [J|J]; [discriminate|]); destruct J|]). destruct I.
  - split.
    + intro I. vm_compute in I. repeat (destruct I as [I|I]; [discriminate|]). destruct I.
    + intros n a b c I Sp. exfalso. cbn [case_nouns map fst app In] in I.
      repeat (destruct I as [<-|I]; [vm_compute in Sp; repeat (destruct Sp as [Sp|Sp]; [discriminate|]); destruct Sp|]). destruct I.
Qed.

(** *** Where the code departs from its documentation *)
(** "Capitalizes the first word" (README.md 322): not if punctuation or a mark
    of emphasis comes first. *)
Theorem C51_first_word_refuted : exists text word, starts_with (lit "(re)") word = true /\ text = word ++ lit " The Server"
  /\ in_case text = word ++ lit " the server".
Proof. exists (lit "(re)starting The Server"), (lit "(re)starting"). vm_compute. auto. Qed.
Print Assumptions C51_first_word_refuted.
Theorem C51_emphasis_refuted : in_case (lit "**Getting** Started") = lit "**getting** started".
Proof. vm_compute. reflexivity. Qed.
Print Assumptions C51_emphasis_refuted.
(** "Preserves acronyms (2+ consecutive uppercase letters)" (README.md 324,
    CHANGES.md 255): only at the beginning of a word. *)
Theorem C51_acronym_refuted : exists a b, (u_upper uni_ascii a && u_upper uni_ascii b = true)
  /\ contains_sub [a; b] (lit "Many (APIs)") = true /\ contains_sub [a; b] (in_case (lit "Many (APIs)")) = false.
Proof. exists 65%N, 80%N. vm_compute. auto. Qed.
Print Assumptions C51_acronym_refuted.
(** Words behind a delimiter keep their capital (heading.rs 534-551), but not
    if another delimiter stands right behind them. *)
Theorem C51_delimiter_refuted : in_case (lit "Intro: Setup: Steps") = lit "Intro: setup: Steps".
Proof. vm_compute. reflexivity. Qed.
Print Assumptions C51_delimiter_refuted.
(** "Capitalizes only the first word": a heading that begins with a quotation
    gets a second capital. *)
Theorem C51_quotation_first_refuted : in_case (lit """Hello"" world and more") = c_ldq :: lit "Hello" ++ c_rdq :: lit " World and more".
Proof. vm_compute. reflexivity. Qed.
Print Assumptions C51_quotation_first_refuted.
