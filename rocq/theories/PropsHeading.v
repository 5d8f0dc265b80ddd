(** C29 and C30: headings and sentence case. *)
From Coq Require Import Bool Arith NArith Lia ZifyBool ZifyNat ZifyN String List.
From Verif Require Import Base BaseFacts DecFacts OptsModel HeadingModel SpecHeading HeadingProof.
Import ListNotations.

(** C30, full statement: for every heading text, sentence case leaves code
    spans alone and otherwise changes nothing but letter case and the shape of
    quotation marks.

    Proved for every text without U+FFFD: cut at backticks, the code pieces
    are kept literally, and every other piece looks the same to any observer
    who ignores case and quote shape.  Missing: texts with U+FFFD
    ([C30_fffd_refuted]) and code spans delimited by several backticks, which
    the code does not recognise ([C30_double_backtick_refuted]). *)
Theorem C30_sentence_case_partial : forall U PN user common see text,
  case_blind U see -> caseless_laws U -> noun_table U PN user ->
  ~ In c_fffd text ->
  exists outs,
    to_sentence_case U PN user common text = concat outs
    /\ Forall2 (fun piece out =>
         if fst piece : bool then out = snd piece
         else flat_map see out = flat_map see (snd piece))
       (pieces text) outs.
Proof.
  intros U PN user common see text CB CL NT N.
  exact (sentence_case_pieces U PN user common see CB CL NT text N).
Qed.
Print Assumptions C30_sentence_case_partial.

Lemma pieces_concat : forall s b cur, List.concat (map snd (code_pieces b cur s)) = rev cur ++ s.
Proof.
  induction s as [|c r IH]; intros b cur; cbn [code_pieces]; [reflexivity|].
  destruct (N.eqb c 96) eqn:E.
  - destruct b; cbn [map snd List.concat]; rewrite IH; cbn [rev app]; rewrite <- ?app_assoc; [reflexivity|].
    apply N.eqb_eq in E. subst. reflexivity.
  - rewrite IH. cbn [rev]. rewrite <- app_assoc. reflexivity.
Qed.

(** Consequence for the whole text: it looks the same. *)
Theorem C30_letters_kept_partial : forall U PN user common see text,
  case_blind U see -> caseless_laws U -> noun_table U PN user ->
  ~ In c_fffd text ->
  flat_map see (to_sentence_case U PN user common text) = flat_map see text.
Proof.
  intros U PN user common see text CB CL NT N.
  destruct (C30_sentence_case_partial U PN user common see text CB CL NT N) as (outs & -> & F).
  transitivity (flat_map see (List.concat (map snd (pieces text)))); [|unfold pieces; rewrite pieces_concat; reflexivity].
  induction F as [|p o l m H F IH]; [reflexivity|]. cbn [map List.concat]. rewrite !flat_map_app, IH. f_equal.
  cbn beta in H. destruct (fst p); [rewrite H; reflexivity|exact H].
Qed.
Print Assumptions C30_letters_kept_partial.

(** An observer for ASCII case mapping: lower case, straight quotes. *)
Definition see_ascii (c : char) : str :=
  if N.eqb c 8216 || N.eqb c 8217 then [39%N]
  else if N.eqb c 8220 || N.eqb c 8221 then [34%N]
  else [ascii_lower c].

Lemma ascii_lower_idem : forall c, ascii_lower (ascii_lower c) = ascii_lower c.
Proof. intros c. unfold ascii_lower, is_ascii_upper. destruct ((65 <=? c) && (c <=? 90))%N eqn:E; [|rewrite E; reflexivity].
  destruct ((65 <=? c + 32) && (c + 32 <=? 90))%N eqn:F; lia. Qed.

Lemma ascii_lower_big : forall c, (128 <= c)%N -> ascii_lower c = c.
Proof. intros c H. unfold ascii_lower, is_ascii_upper. destruct ((65 <=? c) && (c <=? 90))%N eqn:E; lia. Qed.
Lemma ascii_lower_small : forall c, (c < 128)%N -> (ascii_lower c < 128)%N.
Proof. intros c H. unfold ascii_lower, is_ascii_upper. destruct ((65 <=? c) && (c <=? 90))%N eqn:E; lia. Qed.

Lemma see_ascii_lower : forall c, see_ascii (ascii_lower c) = see_ascii c.
Proof.
  intros c. destruct (N.lt_ge_cases c 128) as [L|L]; [|rewrite ascii_lower_big; auto].
  pose proof (ascii_lower_small c L) as L2. unfold see_ascii.
  replace (N.eqb (ascii_lower c) 8216 || N.eqb (ascii_lower c) 8217) with false by lia.
  replace (N.eqb (ascii_lower c) 8220 || N.eqb (ascii_lower c) 8221) with false by lia.
  replace (N.eqb c 8216 || N.eqb c 8217) with false by lia.
  replace (N.eqb c 8220 || N.eqb c 8221) with false by lia.
  rewrite ascii_lower_idem. reflexivity.
Qed.

Lemma ascii_upper_lower : forall c, ascii_lower (ascii_upper c) = ascii_lower c.
Proof.
  intros c. unfold ascii_lower, ascii_upper, is_ascii_lower, is_ascii_upper.
  destruct ((97 <=? c) && (c <=? 122))%N eqn:E.
  - replace ((65 <=? c - 32) && (c - 32 <=? 90))%N with true by lia.
    replace ((65 <=? c) && (c <=? 90))%N with false by lia. lia.
  - reflexivity.
Qed.

Example ascii_case_blind : case_blind uni_ascii see_ascii.
Proof.
  split; try reflexivity.
  - intros s. cbn [uni_ascii u_lower_str]. induction s as [|c s IH]; [reflexivity|].
    cbn [map flat_map]. rewrite IH, see_ascii_lower. reflexivity.
  - intros c. cbn [uni_ascii u_upper_chr flat_map]. rewrite app_nil_r.
    rewrite <- see_ascii_lower, ascii_upper_lower, see_ascii_lower. reflexivity.
  - intros c H. rewrite <- (see_ascii_lower c). f_equal. unfold ascii_lower, is_ascii_upper.
    replace ((65 <=? c) && (c <=? 90))%N with true by lia. reflexivity.
Qed.

Example ascii_caseless : caseless_laws uni_ascii.
Proof.
  split; cbn [uni_ascii u_lower_str u_upper_chr u_alnum u_alpha].
  - intros s I. apply (in_map ascii_lower) in I. exact I.
  - intros s. split; intros I.
    + apply (in_map ascii_lower) in I. exact I.
    + apply in_map_iff in I. destruct I as (c & E & I). unfold ascii_lower, is_ascii_upper, c_fffd in E.
      destruct ((65 <=? c) && (c <=? 90))%N eqn:F; [lia|]. subst c. exact I.
  - intros c [I|[]]. unfold ascii_upper, is_ascii_lower, c_fffd in *.
    destruct ((97 <=? c) && (c <=? 122))%N eqn:F; lia.
  - intros s H. induction H as [|c s Hc H IH]; [reflexivity|]. cbn [map]. rewrite IH. f_equal.
    unfold ascii_lower, is_ascii_upper, is_ascii_digit in *. destruct ((65 <=? c) && (c <=? 90))%N eqn:F; lia.
  - intros c H. unfold is_ascii_alnum, ascii_is_alpha, is_ascii_upper, is_ascii_lower, is_ascii_digit in *.
    rewrite H. split; [reflexivity|lia].
  - reflexivity.
Qed.

(** Nouns as in data/proper-nouns.tsv. *)
Definition some_nouns : list (str * str) :=
  [(lit "GitHub", lit "github"); (lit "Visual Studio", lit "visual studio"); (lit "Rust", lit "rust")].
Example some_nouns_ok : noun_table uni_ascii some_nouns [lit "MyTool"].
Proof.
  split.
  - unfold some_nouns. repeat (constructor; [split; [reflexivity|intros I; vm_compute in I; intuition discriminate]|]). constructor.
  - constructor; [intros I; vm_compute in I; intuition discriminate|constructor].
Qed.

Example sentence_case_example :
  to_sentence_case uni_ascii some_nouns [lit "MyTool"] []
    (lit "Using The `Big Tool` With VISUAL Studio's Github-Actions: Mytool And 'More Fun'")
  = lit "Using the `Big Tool` with Visual Studio's GitHub-actions: MyTool and " ++ [c_lsq] ++ lit "More fun" ++ [c_rsq].
Proof. vm_compute. reflexivity. Qed.
Example sentence_case_letters :
  flat_map see_ascii (to_sentence_case uni_ascii some_nouns [lit "MyTool"] []
    (lit "Using The `Big Tool` With VISUAL Studio's Github-Actions")) =
  lit "using the `big tool` with visual studio's github-actions".
Proof.
  rewrite (C30_letters_kept_partial uni_ascii some_nouns [lit "MyTool"] [] see_ascii); [reflexivity| | | |].
  - apply ascii_case_blind. - apply ascii_caseless. - apply some_nouns_ok.
  - intros I. vm_compute in I. intuition discriminate.
Qed.

(** A code span delimited by two backticks whose content has a backtick: the
    code is changed. *)
Theorem C30_double_backtick_refuted : exists text before code after,
  text = before ++ lit "``" ++ code ++ lit "``" ++ after
  /\ ~ contains_sub (lit "``") code = true
  /\ to_sentence_case uni_ascii [] [] [] text
     <> before ++ lit "``" ++ code ++ lit "``" ++ after
  /\ contains_sub code (to_sentence_case uni_ascii [] [] [] text) = false.
Proof.
  exists (lit "Call ``Make`This``"), (lit "Call "), (lit "Make`This"), (lit "").
  vm_compute. repeat split; try discriminate; intros H; discriminate H.
Qed.
Print Assumptions C30_double_backtick_refuted.

(** Text that looks like a placeholder is overwritten by a proper noun. *)
Theorem C30_fffd_refuted : exists text,
  flat_map see_ascii (to_sentence_case uni_ascii some_nouns [] [] text) <> flat_map see_ascii text.
Proof.
  exists (placeholder 0 ++ lit " visual studio"). vm_compute. discriminate.
Qed.
Print Assumptions C30_fffd_refuted.

(** The destination of an inline link in a heading is case-converted too (it
    is part of the heading text, inline.rs 85-101). *)
Theorem C30_link_destination_refuted : exists url,
  let text := lit "The [docs](" ++ url ++ lit ")" in
  contains_sub url (to_sentence_case uni_ascii [] [] [] text) = false.
Proof. exists (lit "/Guide/Intro"). vm_compute. reflexivity. Qed.
Print Assumptions C30_link_destination_refuted.

(** C29: the written heading, read with the CommonMark rules, has the given
    level, and a setext underline is exactly as wide as the text above it. *)
Definition uses_setext (o : Options) (level : nat) : bool :=
  (level =? 1) && setext_h1 o || (level =? 2) && setext_h2 o.

Theorem C29_heading : forall U PN o nouns commons level text,
  (forall c n, (c = c_eq \/ c = c_dash) -> u_width U (repeat c n) = n) ->
  1 <= level <= 6 ->
  exists shown,
    shown = (if heading_sentence_case o
             then to_sentence_case U PN (heading_proper_nouns o ++ nouns) (heading_common_nouns o ++ commons) text
             else text)
    /\ (uses_setext o level = true ->
          exists under, heading_output U PN o nouns commons level text = shown ++ [c_nl] ++ under ++ [c_nl]
            /\ u_width U under = u_width U shown
            /\ (1 <= u_width U shown -> read_underline under = Some level))
    /\ (uses_setext o level = false ->
          exists line, heading_output U PN o nouns commons level text = line ++ [c_nl]
            /\ read_atx line = Some (level, shown)).
Proof.
  intros U PN o nouns commons level text HW HL.
  set (shown := if heading_sentence_case o
    then to_sentence_case U PN (heading_proper_nouns o ++ nouns) (heading_common_nouns o ++ commons) text else text).
  exists shown. unfold heading_output, uses_setext. fold shown. cbv zeta.
  split; [reflexivity|].
  assert (FA : forall c n, forallb (N.eqb c) (repeat c n) = true).
  { intros c n. induction n; cbn; [reflexivity|]. rewrite N.eqb_refl. exact IHn. }
  split.
  - intros H. destruct ((level =? 1) && setext_h1 o) eqn:E1.
    + exists (repc c_eq (u_width U shown)). split; [reflexivity|]. split; [apply HW; auto|].
      intros L. apply andb_prop in E1. destruct E1 as [E1 _]. apply Nat.eqb_eq in E1. subst level.
      destruct (u_width U shown) as [|n]; [lia|]. unfold repc. cbn [repeat read_underline].
      change (forallb (N.eqb 61) (repeat c_eq n)) with (forallb (N.eqb c_eq) (repeat c_eq n)). rewrite FA. reflexivity.
    + cbn [orb] in H. rewrite H.
      exists (repc c_dash (u_width U shown)). split; [reflexivity|]. split; [apply HW; auto|].
      intros L. apply andb_prop in H. destruct H as [H _]. apply Nat.eqb_eq in H. subst level.
      destruct (u_width U shown) as [|n]; [lia|]. unfold repc. cbn [repeat read_underline].
      change (forallb (N.eqb 45) (repeat c_dash n)) with (forallb (N.eqb c_dash) (repeat c_dash n)). rewrite FA. reflexivity.
  - intros H. apply orb_false_elim in H. destruct H as [-> ->].
    exists (repc c_hash level ++ [c_sp] ++ shown). split; [rewrite <- !app_assoc; reflexivity|].
    assert (CH : forall n r, count_hashes (repc c_hash n ++ c_sp :: r) = (n, c_sp :: r)).
    { intros n r. induction n as [|n IH]; [reflexivity|]. unfold repc in *. cbn [repeat app count_hashes].
      change (N.eqb c_hash 35) with true. cbv iota. rewrite IH. reflexivity. }
    unfold read_atx. cbn [app]. rewrite CH.
    replace ((1 <=? level) && (level <=? 6)) with true by lia. reflexivity.
Qed.
Print Assumptions C29_heading.

Example C29_example_setext :
  heading_output uni_ascii [] default_options [] [] 2 (lit "Usage") = lit "Usage" ++ [c_nl] ++ lit "-----" ++ [c_nl].
Proof. vm_compute. reflexivity. Qed.
Example C29_example_atx :
  heading_output uni_ascii [] default_options [] [] 3 (lit "Usage") = lit "### Usage" ++ [c_nl].
Proof. vm_compute. reflexivity. Qed.

(** A level 1 or 2 heading without visible text has an empty underline, so it
    is no heading any more. *)
Theorem C29_empty_heading_refuted : exists text under,
  heading_output uni_ascii [] default_options [] [] 1 text = text ++ [c_nl] ++ under ++ [c_nl]
  /\ read_underline under = None.
Proof. exists [], []. vm_compute. split; reflexivity. Qed.
Print Assumptions C29_empty_heading_refuted.
