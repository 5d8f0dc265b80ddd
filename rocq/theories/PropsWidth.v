(** C59: the line width decides where lines end, and nothing else. *)
From Coq Require Import Bool Arith NArith Lia ZifyBool ZifyNat ZifyN String List.
From Verif Require Import Base BaseFacts OptsModel WrapModel CodeModel TableModel HeadingModel AstModel StateModel
  InlineModel WarnModel SerModel SpecContext SpecWrap SpecSame SpecWidth SerFacts WidthProof WordsText PropsSafe PropsEnd PropsTrail.
From Verif Require WordsProof.
Import ListNotations.

Lemma ink_bare : forall q s, ink q s = bare (layout_mark q false) s.
Proof.
  intros q s. unfold ink, bare. apply filter_ext. intro c. unfold layout_mark. rewrite orb_false_r. reflexivity.
Qed.

(** C59: two runs that differ only in the line width write the same words in
    the same order (where the document has quotes, reading greater-than signs
    as white space: a quote of more lines has more marks).  Every tree whose
    paragraphs are as parsers leave them, every option set. *)
Theorem C59_words : forall U PN ENT o w B src ends_nl checks n s t, flows U ENT o src n ->
  serialize_root U PN ENT o B src ends_nl checks n = Ok s ->
  serialize_root U PN ENT (with_width o w) B src ends_nl checks n = Ok t ->
  words_of true (output s) = words_of true (output t)
  /\ (~ has_quotes n -> words_of false (output s) = words_of false (output t)).
Proof.
  intros U PN ENT o w B src ends_nl checks n s t F Es Et. unfold serialize_root in Es, Et.
  assert (G : forall q, (has_quotes n -> q = true) -> words_of q (output s) = words_of q (output t)).
  { intros q Q. pose proof (WordsProof.par_serialize q U PN ENT o w B src ends_nl checks n None Q F init_st init_st (WordsProof.near_init q)) as H.
    rewrite Es, Et in H. exact (alike_words q _ _ (proj1 (WordsProof.nr_output _ _ _ H))). }
  split; [apply G; reflexivity|]. intro N. apply G. intro H. contradiction.
Qed.
(** Of trees with any paragraphs that are not blank: the same characters other
    than white space, the same warnings and the same calls of formatters.
    Without overflow checks both runs panic or neither does. *)
Theorem C59_ink : forall U PN ENT o w B src ends_nl checks n, speaks U ENT o src n ->
  let a := serialize_root U PN ENT o B src ends_nl checks n in
  let b := serialize_root U PN ENT (with_width o w) B src ends_nl checks n in
  (forall s t, a = Ok s -> b = Ok t ->
     ink true (output s) = ink true (output t) /\ (~ has_quotes n -> ink false (output s) = ink false (output t))
     /\ warnings s = warnings t /\ calls s = calls t /\ codes (trace s) = codes (trace t))
  /\ (checks = false -> (a = Panic <-> b = Panic)).
Proof.
  intros U PN ENT o w B src ends_nl checks n Sp a b. subst a b. unfold serialize_root. split.
  - intros s t Es Et.
    assert (G : forall q, (has_quotes n -> q = true) -> near q s t).
    { intros q Q. pose proof (par_serialize q U PN ENT o w B src ends_nl checks n None Q Sp init_st init_st (near_init q)) as H.
      rewrite Es, Et in H. exact H. }
    assert (T : near true s t) by (apply G; reflexivity).
    split; [rewrite !ink_bare; apply (nr_output _ _ _ T)|]. split; [|split; [apply T|split; apply T]].
    intro N. rewrite !ink_bare. apply (nr_output false s t). apply G. intro H. contradiction.
  - intro Ck. pose proof (par_serialize true U PN ENT o w B src ends_nl checks n None (fun _ => eq_refl) Sp init_st init_st (near_init true)) as H.
    unfold meet in H. destruct (serialize U PN ENT o B src ends_nl checks None n init_st), (serialize U PN ENT (with_width o w) B src ends_nl checks None n init_st);
      try (rewrite Ck in H; discriminate H); split; intro Z; try discriminate Z; reflexivity.
Qed.
Lemma flows_speaks : forall U ENT o src n, flows U ENT o src n -> speaks U ENT o src n.
Proof. intros U ENT o src n F m x evs W V E. apply WordsProof.flowing_shows. exact (F m x evs W V E). Qed.
(** Of [format_with_warnings]: words and warnings. *)
Theorem C59_format : forall U PN ENT parse o w B checks input out ws out' ws',
  flows U ENT o (lines input) (parse input) ->
  format_with_warnings U PN ENT parse o B checks input = Ok (out, ws) ->
  format_with_warnings U PN ENT parse (with_width o w) B checks input = Ok (out', ws') ->
  words_of true out = words_of true out' /\ (~ has_quotes (parse input) -> words_of false out = words_of false out') /\ ws = ws'.
Proof.
  intros U PN ENT parse o w B checks input out ws out' ws' F E G. unfold format_with_warnings in E, G. destruct (is_nil input).
  - injection E as <- <-. injection G as <- <-. auto.
  - set (nl := ends_with_newline input) in *.
    destruct (C59_ink U PN ENT o w B (lines input) nl checks (parse input) (flows_speaks _ _ _ _ _ F)) as [H _].
    pose proof (fun s t => C59_words U PN ENT o w B (lines input) nl checks (parse input) s t F) as K.
    destruct (serialize_root U PN ENT o B (lines input) nl checks (parse input)) as [s|]; [|discriminate E].
    destruct (serialize_root U PN ENT (with_width o w) B (lines input) nl checks (parse input)) as [t|]; [|discriminate G].
    injection E as <- <-. injection G as <- <-. destruct (H s t eq_refl eq_refl) as (_ & _ & H3 & _). destruct (K s t eq_refl eq_refl) as [K1 K2]. auto.
Qed.
Print Assumptions C59_words.
Print Assumptions C59_ink.
Print Assumptions C59_format.

(** The document of C58, in lines of 18 and of 30 columns: a paragraph, a quote
    with a list, an item with code, a footnote; and one more footnote, with a
    quote in it. *)
Definition cs59 : list node := cs58 ++
  [at40 18 (NFootnoteDefinition (lit "m")) [at40 18 NBlockQuote [par40 18 (lit "one two three four")]]].
Definition run59 (w : nat) : res str :=
  rbind (serialize_root uni_ascii [] (fun _ => None) (with_width opts58 w) (Wasm None) src58 true true (Node NDocument (mkPos 1 1 1 1) cs59))
    (fun s => Ok (output s)).
Lemma flows_node : forall U ENT o src v pos cs,
  (v = NParagraph -> forall x evs, inline_content U ENT o src (Node v pos cs) = Ok (x, evs) -> flowing x) ->
  Forall (flows U ENT o src) cs -> flows U ENT o src (Node v pos cs).
Proof.
  intros U ENT o src v pos cs H F m x evs W V E. apply within_inv in W. destruct W as [->|(c & Ic & W)].
  - eapply H; [exact V|exact E].
  - rewrite Forall_forall in F. exact (F c Ic m x evs W V E).
Qed.
Ltac flow := apply flows_node; [let x := fresh "x" in let E := fresh "E" in
  first [discriminate|intros _ x evs E; vm_compute in E; injection E as <- _; unfold flowing; vm_compute;
    repeat (apply Forall_cons || apply Forall_nil); split; first [reflexivity|discriminate]]|repeat (apply Forall_cons; [flow|]); apply Forall_nil].
(** The marks make a difference to the last conjunct. *)
Example C59_witness : flows uni_ascii (fun _ => None) opts58 src58 (Node NDocument (mkPos 1 1 1 1) cs59)
  /\ exists a b, run59 18 = Ok a /\ run59 30 = Ok b /\ a <> b /\ words_of true a = words_of true b
  /\ List.length (words_of true a) = 25 /\ words_of false a <> words_of false b
  /\ exists x y, a = x ++ lit "[^m]: > one two three" ++ [c_nl] ++ lit "      > four" ++ y.
Proof.
  split.
  - unfold cs59, cs58, at40, par40, text40, break58, soft58. cbn [app]. flow.
  - do 2 eexists. split; [vm_compute; reflexivity|]. split; [vm_compute; reflexivity|]. split; [discriminate|]. split; [vm_compute; reflexivity|].
    split; [vm_compute; reflexivity|]. split; [vm_compute; discriminate|].
    match goal with |- exists x y, ?a = _ => exists (firstn 142 a), (skipn 176 a) end. vm_compute. reflexivity.
Qed.
