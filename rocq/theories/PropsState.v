(** C32, C35 and C38: source extraction, directives, emphasis delimiters. *)
From Coq Require Import Bool Arith NArith Lia ZifyBool ZifyNat ZifyN String List.
From Verif Require Import Base BaseFacts OptsModel PunctModel AstModel StateModel InlineModel SpecState StateProof.
Import ListNotations.

(** C35: an HTML block is a directive exactly when it is a comment whose
    trimmed body is a documented form, and its noun list is the list of
    trimmed non-empty entries. *)
Theorem C35_directives : forall html d,
  parse_directive html = Some d <-> exists body, comment_body html body /\ directive_form body d.
Proof. exact parse_directive_spec. Qed.
Print Assumptions C35_directives.

Example C35_plain : parse_directive (lit "  <!--   hongdown-disable-next-section --> ") = Some DisableNextSection.
Proof. vm_compute. reflexivity. Qed.
Example C35_nouns :
  parse_directive (lit "<!-- hongdown-proper-nouns: Swift , , Go 2,-->")
  = Some (ProperNouns [lit "Swift"; lit "Go 2"]).
Proof. vm_compute. reflexivity. Qed.
Example C35_not_directive :
  parse_directive (lit "<!-- hongdown-disable-everything -->") = None
  /\ parse_directive (lit "<!-- hongdown-disable") = None
  /\ parse_directive (lit "<!-->") = None
  /\ parse_directive (lit "<!-- Hongdown-enable -->") = None.
Proof. vm_compute. auto. Qed.

(** C32, exactness: for every text given by its lines and every position that
    lies in it, the extracted source is the text between its start and its
    end, inclusive. *)
Theorem C32_exact : forall src p s,
  src <> [] -> Forall (fun l => ~ In c_nl l) src ->
  spans (join [c_nl] src) p s -> extract_source src p = Ok (Some s).
Proof.
  intros src p s Hne F. apply extract_spans; [exact Hne|].
  eapply Forall_impl; [|exact F]. intros l H. cbn beta in H. apply Forall_forall. intros x I ->. exact (H I).
Qed.
Print Assumptions C32_exact.

(** For every non-empty input, whose lines are what hongdown works on. *)
Theorem C32_lines : forall input p s, input <> [] ->
  spans (join [c_nl] (lines input)) p s -> extract_source (lines input) p = Ok (Some s).
Proof.
  intros input p s Hne. apply C32_exact.
  - assert (G : forall t cur, lines_aux cur t = [] -> t = []).
    { induction t as [|x t IH]; intros cur E; [reflexivity|]. cbn [lines_aux] in E.
      destruct (ceq x c_nl); [discriminate|]. destruct t; [cbn in E; destruct (rev cur); discriminate|].
      apply IH in E. discriminate. }
    intro E. apply Hne. eapply G. exact E.
  - eapply Forall_impl; [|apply lines_forall]. intros l H I. cbn beta in H.
    rewrite Forall_forall in H. exact (H _ I eq_refl).
Qed.
Print Assumptions C32_lines.

Definition text32 : list str := [lit "# A"; lit "one [b]"; []; lit "two x"].
Example C32_one_line : extract_source text32 (mkPos 2 5 2 7) = Ok (Some (lit "[b]")).
Proof. vm_compute. reflexivity. Qed.
Example C32_several : spans (join [c_nl] text32) (mkPos 2 1 4 3) (join [c_nl] [lit "one [b]"; []; lit "two"]).
Proof.
  exists (lit "# A" ++ [c_nl]), (lit " x"). split; [reflexivity|]. split; [cbn; lia|].
  split; vm_compute; reflexivity.
Qed.
(** Columns count bytes: U+00E9 takes two. *)
Example C32_bytes : extract_source [[233%N; c_star; 233%N; c_star]] (mkPos 1 3 1 5) = Ok (Some [c_star; 233%N]).
Proof. vm_compute. reflexivity. Qed.

(** C32, "never panics whatever the position" is false: extraction panics for
    exactly the one-line positions that put a whole character between the end
    column and the start column. *)
Theorem C32_panics_exactly : forall src p, extract_source src p = Panic <->
  start_line p = end_line p /\ 1 <= start_line p /\
  exists u w t, nth_error src (start_line p - 1) = Some (u ++ w ++ t)
    /\ w <> [] /\ end_col p <= byte_len u /\ byte_len (u ++ w) <= start_col p - 1.
Proof. exact extract_panic. Qed.
Print Assumptions C32_panics_exactly.
Theorem C32_no_panic_refuted : exists src p, extract_source src p = Panic.
Proof. exists [lit "hello"], (mkPos 1 5 1 2). vm_compute. reflexivity. Qed.
Print Assumptions C32_no_panic_refuted.
(** Positions whose start is not after their end never panic, in any text. *)
Theorem C32_no_panic_partial : forall src p,
  start_col p <= end_col p + 1 \/ start_line p <> end_line p -> extract_source src p <> Panic.
Proof.
  intros src p H E. apply C32_panics_exactly in E. destruct E as (L & _ & u & w & t & _ & Hw & H1 & H2).
  destruct H as [H|H]; [|congruence]. rewrite byte_len_app in H2. destruct w as [|c w]; [congruence|].
  unfold byte_len at 2 in H2. cbn [fold_right] in H2. pose proof (utf8_len_pos c). lia.
Qed.
Print Assumptions C32_no_panic_partial.
Example C32_out_of_range : extract_source text32 (mkPos 4 9 4 90) = Ok (Some [])
  /\ extract_source text32 (mkPos 3 1 9 2) = Ok None /\ extract_source text32 (mkPos 3 7 1 2) = Ok (Some []).
Proof. vm_compute. auto. Qed.

(** ** C38 *)

(** The source of a node starts with [q] (false when the node has no source). *)
Definition source_starts (src : list str) (n : node) (q : str) : Prop :=
  exists s, extract_source src (node_pos n) = Ok (Some (q ++ s)).

(** What a delimiter has to be: '_' when the text below contains an asterisk
    or the source used '_', else '*'; [k] is 1 or 2. *)
Definition delimiter_rule (src : list str) (n : node) (k : nat) (d : str) : Prop :=
  ((has_text c_star n \/ source_starts src n (repeat c_us k)) /\ d = repeat c_us k)
  \/ (~ has_text c_star n /\ ~ source_starts src n (repeat c_us k) /\ d = repeat c_star k).

Lemma delimiter_cases : forall src n k, k = 1 \/ k = 2 -> extract_source src (node_pos n) <> Panic ->
  let d := if text_contains c_star n then repeat c_us k
           else match extract_source src (node_pos n) with
                | Ok (Some source) => if starts_with (repeat c_us k) source then repeat c_us k else repeat c_star k
                | _ => repeat c_star k
                end in
  delimiter_rule src n k d.
Proof.
  intros src n k Hk NP. cbv zeta. destruct (text_contains c_star n) eqn:T.
  - left. split; [left; apply text_contains_spec; exact T|reflexivity].
  - assert (NT : ~ has_text c_star n) by (intro HT; apply text_contains_spec in HT; congruence).
    destruct (extract_source src (node_pos n)) as [[source|]|] eqn:X; [| |congruence].
    + destruct (starts_with (repeat c_us k) source) eqn:S.
      * left. split; [|reflexivity]. right. apply starts_with_true in S. destruct S as [r ->]. exists r. exact X.
      * right. split; [exact NT|]. split; [|reflexivity]. intros [r R]. rewrite X in R. injection R as ->.
        assert (S' : starts_with (repeat c_us k) (repeat c_us k ++ r) = true) by (apply starts_with_true; eauto).
        congruence.
    + right. split; [exact NT|]. split; [|reflexivity]. intros [r R]. rewrite X in R. discriminate.
Qed.
Lemma emphasis_rule : forall src n d, emphasis_delimiter src n = Ok d -> text_contains c_star n = true \/ extract_source src (node_pos n) <> Panic.
Proof.
  intros src n d H. unfold emphasis_delimiter in H. destruct (text_contains c_star n); [auto|].
  right. intro X. rewrite X in H. discriminate.
Qed.
Lemma emphasis_delimiter_rule : forall src n d, emphasis_delimiter src n = Ok d -> delimiter_rule src n 1 [d].
Proof.
  intros src n d H. destruct (emphasis_rule _ _ _ H) as [T|NP].
  - left. split; [left; apply text_contains_spec; exact T|]. unfold emphasis_delimiter in H. rewrite T in H.
    injection H as <-. reflexivity.
  - pose proof (delimiter_cases src n 1 (or_introl eq_refl) NP) as R. cbv zeta in R.
    unfold emphasis_delimiter in H. destruct (text_contains c_star n); [injection H as <-; exact R|].
    destruct (extract_source src (node_pos n)) as [[source|]|]; cbn [rbind] in H; [| |discriminate];
      injection H as <-; [|exact R]. change [c_us] with (repeat c_us 1).
    destruct (starts_with (repeat c_us 1) source); exact R.
Qed.
Lemma strong_delimiter_rule : forall src n d, strong_delimiter src n = Ok d -> delimiter_rule src n 2 d.
Proof.
  intros src n d H. unfold strong_delimiter in H. destruct (text_contains c_star n) eqn:T.
  - left. split; [left; apply text_contains_spec; exact T|]. injection H as <-. reflexivity.
  - destruct (extract_source src (node_pos n)) as [x|] eqn:X; [|discriminate].
    assert (NP : extract_source src (node_pos n) <> Panic) by congruence.
    pose proof (delimiter_cases src n 2 (or_intror eq_refl) NP) as R. cbv zeta in R. rewrite T, X in R.
    destruct x as [source|]; cbn [rbind] in H; injection H as <-; exact R.
Qed.
Lemma wapp_ok : forall a b x, wapp a b = Ok x -> exists y z, a = Ok y /\ b = Ok z /\ x = (fst y ++ fst z, snd y ++ snd z).
Proof.
  intros a b x H. unfold wapp in H. destruct a as [y|]; [|discriminate]. destruct b as [z|]; [|discriminate].
  cbn [rbind] in H. injection H as <-. eauto.
Qed.

(** C38: whenever emphasis is written into a paragraph, table cell or footnote
    ([collect_inline]) or into a heading ([collect_text]), it is its content
    between two equal delimiters that follow the rule; likewise strong
    emphasis. *)
Theorem C38_inline : forall U ENT o src next p cs text evs,
  (collect_inline U ENT o src next (Node NEmph p cs) = Ok (text, evs) ->
   exists d body, text = d ++ body ++ d /\ delimiter_rule src (Node NEmph p cs) 1 d
     /\ inline_content U ENT o src (Node NEmph p cs) = Ok (body, evs))
  /\ (collect_inline U ENT o src next (Node NStrong p cs) = Ok (text, evs) ->
   exists d body, text = d ++ body ++ d /\ delimiter_rule src (Node NStrong p cs) 2 d
     /\ inline_content U ENT o src (Node NStrong p cs) = Ok (body, evs)).
Proof.
  intros U ENT o src next p cs text evs. split; intro H; cbn [collect_inline] in H.
  - destruct (emphasis_delimiter src (Node NEmph p cs)) as [d|] eqn:D; [|discriminate]. cbn [rbind] in H.
    apply wapp_ok in H. destruct H as (y & z & Hy & Hz & E). apply wapp_ok in Hz.
    destruct Hz as (z1 & z2 & Hz1 & Hz2 & Ez). injection Hy as <-. injection Hz2 as <-. subst z.
    cbn [fst snd app] in E. injection E as -> ->. exists [d], (fst z1).
    split; [reflexivity|]. split; [apply emphasis_delimiter_rule; exact D|].
    unfold inline_content. cbn [node_children]. rewrite app_nil_r. destruct z1; exact Hz1.
  - destruct (strong_delimiter src (Node NStrong p cs)) as [d|] eqn:D; [|discriminate]. cbn [rbind] in H.
    apply wapp_ok in H. destruct H as (y & z & Hy & Hz & E). apply wapp_ok in Hz.
    destruct Hz as (z1 & z2 & Hz1 & Hz2 & Ez). injection Hy as <-. injection Hz2 as <-. subst z.
    cbn [fst snd app] in E. injection E as -> ->. exists d, (fst z1).
    split; [reflexivity|]. split; [apply strong_delimiter_rule; exact D|].
    unfold inline_content. cbn [node_children]. rewrite app_nil_r. destruct z1; exact Hz1.
Qed.
Print Assumptions C38_inline.

Theorem C38_heading : forall U ENT o src p cs text evs,
  (collect_text U ENT o src (Node NEmph p cs) = Ok (text, evs) ->
   exists d body, text = d ++ body ++ d /\ delimiter_rule src (Node NEmph p cs) 1 d
     /\ wcat (map (collect_text U ENT o src) cs) = Ok (body, evs))
  /\ (collect_text U ENT o src (Node NStrong p cs) = Ok (text, evs) ->
   exists d body, text = d ++ body ++ d /\ delimiter_rule src (Node NStrong p cs) 2 d
     /\ wcat (map (collect_text U ENT o src) cs) = Ok (body, evs)).
Proof.
  intros U ENT o src p cs text evs. split; intro H; cbn [collect_text] in H.
  - destruct (emphasis_delimiter src (Node NEmph p cs)) as [d|] eqn:D; [|discriminate]. cbn [rbind] in H.
    apply wapp_ok in H. destruct H as (y & z & Hy & Hz & E). apply wapp_ok in Hz.
    destruct Hz as (z1 & z2 & Hz1 & Hz2 & Ez). injection Hy as <-. injection Hz2 as <-. subst z.
    cbn [fst snd app] in E. injection E as -> ->. exists [d], (fst z1).
    split; [reflexivity|]. split; [apply emphasis_delimiter_rule; exact D|].
    rewrite app_nil_r. destruct z1; exact Hz1.
  - destruct (strong_delimiter src (Node NStrong p cs)) as [d|] eqn:D; [|discriminate]. cbn [rbind] in H.
    apply wapp_ok in H. destruct H as (y & z & Hy & Hz & E). apply wapp_ok in Hz.
    destruct Hz as (z1 & z2 & Hz1 & Hz2 & Ez). injection Hy as <-. injection Hz2 as <-. subst z.
    cbn [fst snd app] in E. injection E as -> ->. exists d, (fst z1).
    split; [reflexivity|]. split; [apply strong_delimiter_rule; exact D|].
    rewrite app_nil_r. destruct z1; exact Hz1.
Qed.
Print Assumptions C38_heading.

(** [*a _b_ \* c*]: the outer emphasis contains an asterisk. *)
Definition src38 : list str := [lit "*a _b_ \* c*"].
Definition emph38 : node :=
  Node NEmph (mkPos 1 1 1 12)
    [Node (NText (lit "a ")) (mkPos 1 2 1 3) [];
     Node NEmph (mkPos 1 4 1 6) [Node (NText (lit "b")) (mkPos 1 5 1 5) []];
     Node (NText (lit " * c")) (mkPos 1 7 1 11) []].
Example C38_example :
  collect_inline uni_ascii (fun _ => None) default_options src38 None emph38
  = Ok (lit "_a _b_ \* c_", []).
Proof. vm_compute. reflexivity. Qed.
(** Strong emphasis keeps the delimiter of the source when the text allows. *)
Example C38_strong :
  collect_inline uni_ascii (fun _ => None) default_options [lit "__b__ **c**"] None
    (Node NStrong (mkPos 1 1 1 5) [Node (NText (lit "b")) (mkPos 1 3 1 3) []]) = Ok (lit "__b__", [])
  /\ collect_inline uni_ascii (fun _ => None) default_options [lit "__b__ **c**"] None
    (Node NStrong (mkPos 1 7 1 11) [Node (NText (lit "c")) (mkPos 1 9 1 9) []]) = Ok (lit "**c**", []).
Proof. vm_compute. auto. Qed.
