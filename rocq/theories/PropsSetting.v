(** C63: a single setting matters only where something is what it is about. *)
From Coq Require Import Bool Arith NArith Lia ZifyBool ZifyNat ZifyN String List.
From Verif Require Import Base BaseFacts OptsModel PunctModel WrapModel CodeModel TableModel HeadingModel AstModel StateModel
  InlineModel WarnModel SerModel SpecContext SpecSetting SettingProof.
From Verif Require CodeProof AnswerProof.
Import ListNotations.

Section Setting.
Variable U : Uni.
Variable PN : list (str * str).
Variable ENT : str -> option str.
Variable B : backend.
Variable checks : bool.
Notation root o src nl n := (serialize_root U PN ENT o B src nl checks n).

Lemma parts_named : forall a b k i l, code_formatters a = code_formatters b -> (exists c, In c i /\ is_ws c = false) ->
  code_parts a B k i l = code_parts b B k i l.
Proof.
  intros a b k i l F (c & I & N). unfold code_parts, parse_code_info.
  assert (T : trim i <> []).
  { intro E. apply CodeProof.trim_nil_split in E. apply CodeProof.split_whitespace_nil in E. rewrite Forall_forall in E.
    rewrite (E c I) in N. discriminate. }
  assert (W : split_whitespace (trim i) <> []).
  { rewrite CodeProof.split_whitespace_trim. intro E. apply CodeProof.trim_nil_split in E. exact (T E). }
  pose proof (AnswerProof.words_some (trim i)) as S. destruct (trim i) as [|x r] eqn:E; [contradiction|]. cbn [is_nil].
  destruct (split_whitespace (x :: r)) as [|w ws]; [contradiction|]. apply Forall_cons_iff in S. destruct S as [S _].
  destruct w as [|y w]; [contradiction|]. cbn [is_nil andb negb]. unfold try_format_code. rewrite F. reflexivity.
Qed.
Lemma parts_same : forall a b k i l, code_formatters a = code_formatters b -> default_language a = default_language b ->
  code_parts a B k i l = code_parts b B k i l.
Proof. intros a b k i l F D. unfold code_parts, try_format_code. rewrite F, D. reflexivity. Qed.

(** C63: with two sets of options the runs agree in everything, as long as
    nothing in the document is what the settings that differ are about. *)
Theorem C63_settings : forall P a b src nl n, same_but P a b -> (forall x, P x -> idle x a n /\ idle x b n) ->
  root a src nl n = root b src nl n.
Proof.
  intros P a b src nl n S Q. unfold serialize_root. apply settings_alike; [destruct S; split; assumption|].
  intros m Wm. unfold alike_here. destruct (node_value m) eqn:V; try exact Logic.I.
  - intro k. destruct (sb_lang _ _ _ S) as [L|L]; [|apply parts_same; [apply (sb_formatters _ _ _ S)|exact L]].
    apply parts_named; [apply (sb_formatters _ _ _ S)|]. exact (proj1 (Q _ L) m _ _ Wm V).
  - intros nouns commons text. unfold heading_output.
    assert (NH : ~ no_heading n) by (intro N; exact (N m level Wm V)).
    assert (C : heading_sentence_case a = heading_sentence_case b).
    { destruct (sb_case _ _ _ S) as [L|L]; [exfalso; exact (NH (proj1 (Q _ L)))|exact L]. }
    assert (T : (if heading_sentence_case a then to_sentence_case U PN (heading_proper_nouns a ++ nouns) (heading_common_nouns a ++ commons) text else text)
      = (if heading_sentence_case b then to_sentence_case U PN (heading_proper_nouns b ++ nouns) (heading_common_nouns b ++ commons) text else text)).
    { rewrite <- C. destruct (heading_sentence_case a) eqn:Ca; [|reflexivity].
      destruct (sb_proper _ _ _ S) as [L|L]; [destruct (proj1 (Q _ L)); [congruence|contradiction]|].
      destruct (sb_common _ _ _ S) as [M|M]; [destruct (proj1 (Q _ M)); [congruence|contradiction]|]. rewrite L, M. reflexivity. }
    rewrite <- T. cbv zeta.
    assert (H1 : (level =? 1) && setext_h1 a = (level =? 1) && setext_h1 b).
    { destruct (level =? 1) eqn:E; [|reflexivity]. apply Nat.eqb_eq in E. subst level.
      destruct (sb_h1 _ _ _ S) as [L| ->]; [exfalso; exact (proj1 (Q _ L) m Wm V)|reflexivity]. }
    assert (H2 : (level =? 2) && setext_h2 a = (level =? 2) && setext_h2 b).
    { destruct (level =? 2) eqn:E; [|reflexivity]. apply Nat.eqb_eq in E. subst level.
      destruct (sb_h2 _ _ _ S) as [L| ->]; [exfalso; exact (proj1 (Q _ L) m Wm V)|reflexivity]. }
    rewrite H1, H2. reflexivity.
  - apply (punctuation_quiet U P); [exact S|]. intros x Px. destruct (Q x Px) as [Qa Qb].
    destruct x; cbn [idle quiet] in *; auto;
      try (split; [exact (Qa m _ Wm V)|exact (Qb m _ Wm V)]);
      split; intros p E;
      first [ destruct (Qa p E) as [X Y]; split; [exact X|exact (Y m _ Wm V)] | destruct (Qb p E) as [X Y]; split; [exact X|exact (Y m _ Wm V)]
            | exact (Qa p E m _ Wm V) | exact (Qb p E m _ Wm V) ].
Qed.

(** The same of [format_with_warnings]. *)
Theorem C63_format : forall P a b parse input, same_but P a b ->
  (forall x, P x -> idle x a (parse input) /\ idle x b (parse input)) ->
  format_with_warnings U PN ENT parse a B checks input = format_with_warnings U PN ENT parse b B checks input.
Proof.
  intros P a b parse input S Q. unfold format_with_warnings. destruct (is_nil input); [reflexivity|].
  rewrite (C63_settings P a b _ _ _ S Q). reflexivity.
Qed.
End Setting.
Print Assumptions C63_settings.
Print Assumptions C63_format.

(** ** Example *)
Definition at63 : sourcepos := mkPos 1 1 1 1.
Definition text63 (t : string) : node := Node (NText (lit t)) at63 [].
Definition para63 (t : string) : node := Node NParagraph at63 [text63 t].
Definition head63 (l : nat) (t : string) : node := Node (NHeading l) at63 [text63 t].
Definition code63 (i : string) : node := Node (NCodeBlock (lit i) (lit "x")) at63 [].
Definition doc63 (cs : list node) : node := Node NDocument at63 cs.
Definition run63 (o : Options) (cs : list node) : res str :=
  rbind (serialize_root uni_ascii [(lit "Swift", lit "swift")] (fun _ => None) o (Wasm None) [] true true (doc63 cs)) (fun s => Ok (output s)).
(** Options in which one setting is another than in [with63 EmDashes false]. *)
Definition with63 (x : setting) (other : bool) : Options :=
  let d := default_options in
  let is y := other && (if (match x, y with
    | FirstHeadings, FirstHeadings | SecondHeadings, SecondHeadings | SentenceCase, SentenceCase | ProperNouns, ProperNouns
    | CommonNouns, CommonNouns | Language, Language | DoubleQuotes, DoubleQuotes | SingleQuotes, SingleQuotes
    | Apostrophes, Apostrophes | Ellipses, Ellipses | EnDashes, EnDashes | EmDashes, EmDashes => true | _, _ => false end) then true else false) in
  mkOptions (line_width d) (negb (is FirstHeadings)) (negb (is SecondHeadings)) (negb (is SentenceCase))
    (if is ProperNouns then [lit "ProofLab"] else []) (if is CommonNouns then [lit "Swift"] else [])
    (unordered_marker d) (leading_spaces d) (trailing_spaces d) (indent_width d) (odd_level_marker d) (even_level_marker d)
    (ordered_list_pad d) (ordered_list_indent_width d)
    (fence_char d) (min_fence_length d) (space_after_fence d) (if is Language then lit "text" else []) (thematic_break_style d)
    (thematic_break_leading_spaces d)
    (negb (is DoubleQuotes)) (negb (is SingleQuotes)) (is Apostrophes) (negb (is Ellipses))
    (if is EnDashes then DPattern (lit "~") else DDisabled) (if is EmDashes then DPattern (lit "---") else DPattern (lit "--")) (code_formatters d).
(** A document for which the setting is idle, and one for which it is not. *)
Definition quiet63 (x : setting) : list node :=
  match x with
  | FirstHeadings => [head63 2 "A ""b"""; head63 3 "c"; para63 "d... -- it's"]
  | SecondHeadings => [head63 1 "A ""b"""; head63 3 "c"; para63 "d... -- it's"]
  | SentenceCase | ProperNouns | CommonNouns => [para63 "The ProofLab Swift"; code63 ""]
  | Language => [head63 1 "A"; code63 "c"; para63 "d... -- it's"]
  | DoubleQuotes => [head63 1 "A 'b' c"; para63 "d... -- it's"]
  | SingleQuotes | Apostrophes => [head63 1 "A ""b"" c"; para63 "d... -- e"]
  | Ellipses => [head63 1 "A ""b"" c.."; para63 "d. . -- it's"]
  | EnDashes => [head63 1 "A ""b"" c"; para63 "d... -- it's"]
  | EmDashes => [head63 1 "A ""b"" c"; para63 "d... - it's"]
  end.
Definition loud63 (x : setting) : list node :=
  match x with
  | FirstHeadings => [head63 1 "a"]
  | SecondHeadings => [head63 2 "a"]
  | SentenceCase => [head63 3 "A Thing"]
  | ProperNouns => [head63 3 "A prooflab"]
  | CommonNouns => [head63 3 "A Swift thing"]
  | Language => [code63 " "]
  | DoubleQuotes => [para63 "a ""b"""]
  | SingleQuotes => [para63 "a 'b' c"]
  | Apostrophes => [para63 "it's"]
  | Ellipses => [para63 "a..."]
  | EnDashes => [para63 "a ~ b"]
  | EmDashes => [para63 "a -- b"]
  end.
Fixpoint occursb (w t : str) : bool := starts_with w t || match t with [] => false | _ :: r => occursb w r end.
Lemma starts_app : forall w y, starts_with w (w ++ y) = true.
Proof. induction w as [|c w IH]; intro y; [reflexivity|]. unfold starts_with in *. cbn [app strip_prefix].
  destruct (ceq_spec c c); [apply IH|contradiction]. Qed.
Lemma occursb_spec : forall w t, occursb w t = false -> ~ occurs w t.
Proof.
  intros w t E (x & y & ->). induction x as [|c x IH]; cbn [app] in E.
  - destruct (w ++ y) eqn:F; cbn [occursb] in E; apply orb_false_iff in E; destruct E as [E _]; rewrite <- F, starts_app in E; discriminate.
  - cbn [occursb] in E. apply orb_false_iff in E. apply IH. apply E.
Qed.
Example C63_witness : forall x, same_but (eq x) (with63 x false) (with63 x true)
  /\ (idle x (with63 x false) (doc63 (quiet63 x)) /\ idle x (with63 x true) (doc63 (quiet63 x)))
  /\ run63 (with63 x false) (loud63 x) <> run63 (with63 x true) (loud63 x).
Proof.
  assert (Inv : forall m v p cs, within m (Node v p cs) -> m = Node v p cs \/ exists c, In c cs /\ within m c).
  { intros m v p cs W. inversion W; subst; [left; reflexivity|right; eexists; split; eassumption]. }
  intro x. split; [|split].
  - destruct x; split; first [reflexivity | left; reflexivity | right; reflexivity].
  - assert (G : forall Q : node -> Prop, Forall Q (doc63 (quiet63 x) :: flat_map (fun n => n :: node_children n) (quiet63 x)) ->
      forall m, within m (doc63 (quiet63 x)) -> Q m).
    { intros Q F m W. rewrite Forall_forall in F. apply F. clear F.
      destruct x; cbn in W; unfold doc63, head63, para63, code63, text63 in W;
        repeat match goal with
        | X : within _ (Node _ _ _) |- _ => apply Inv in X; destruct X as [->|(? & X & ?)]
        | X : In _ (_ :: _) |- _ => destruct X as [<-|X]
        | X : In _ [] |- _ => destruct X
        | X : False |- _ => destruct X
        | X : _ \/ _ |- _ => destruct X as [<-|X]
        end; cbn; tauto. }
    assert (T : forall w, Forall (fun m => match node_value m with NText t => occursb w t = false | _ => True end)
        (doc63 (quiet63 x) :: flat_map (fun n => n :: node_children n) (quiet63 x)) -> in_no_text w (doc63 (quiet63 x))).
    { intros w F m t W V. pose proof (G _ F m W) as Z. cbv beta in Z. rewrite V in Z. apply occursb_spec. exact Z. }
    split; destruct x; unfold idle, no_heading.
    all: try (right; intros m l W; revert l; apply (G (fun m => forall l, node_value m <> NHeading l)); [repeat constructor; discriminate|exact W]).
    all: try (intros m l W; revert l; apply (G (fun m => forall l, node_value m <> NHeading l)); [repeat constructor; discriminate|exact W]).
    all: try (apply G; repeat constructor; discriminate).
    all: try (apply T; repeat constructor; fail).
    all: try (intros p E; cbn in E; first [discriminate | injection E as <-]).
    all: try (apply T; repeat constructor; fail).
    all: try (split; [vm_compute; intuition discriminate|apply T; repeat constructor; fail]).
    all: intros m i l W; revert i l; apply (G (fun m => forall i l, node_value m = NCodeBlock i l -> exists c, In c i /\ is_ws c = false)); [|exact W].
    all: repeat constructor; try discriminate.
    all: intros i l E; injection E as <- <-; exists 99%N; split; [left; reflexivity|reflexivity].
  - destruct x; vm_compute; discriminate.
Qed.
