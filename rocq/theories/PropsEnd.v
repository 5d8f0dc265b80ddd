(** C40: a formatted document ends in exactly one newline. *)
From Coq Require Import Bool Arith NArith Lia ZifyBool ZifyNat ZifyN String List.
From Verif Require Import Base BaseFacts OptsModel WrapModel CodeModel TableModel HeadingModel AstModel StateModel
  InlineModel WarnModel SerModel SpecState SpecContext SpecDoc SpecSafe SpecEnd SerFacts DocProof DocRun EndProof EndDoc PropsSafe.
Import ListNotations.

(** C40, for documents whose last block, before any footnote definitions, is
    tidy: whatever comes before it, whatever definitions are put after it and
    whatever the context, the text ends in exactly one newline.  [tidy] leaves
    out: front matter, empty quotes, empty lists, lists whose last item ends in
    a heading, table, rule, HTML or description list, underlined headings that
    take no space, headings in sentence case, and blocks whose text ends in
    white space.  Footnotes must be plain, or somewhere contain a paragraph
    that ends in text, code, a table or an alert. *)
Theorem C40_one_newline_partial : forall U PN ENT o B src ends_nl checks p pre c defs s,
  forallb no_document (pre ++ c :: defs) = true ->
  Forall note_definition defs -> tidy U o src c ->
  (forall n d, In n (pre ++ c :: defs) -> directs n d -> formats d) ->
  links_on_line (Node NDocument p (pre ++ c :: defs)) -> Forall (fun n => notes_plain n \/ filled_note n) (pre ++ c :: defs) ->
  serialize_root U PN ENT o B src ends_nl checks (Node NDocument p (pre ++ c :: defs)) = Ok s -> ends_once (output s).
Proof. intros. eapply ends_document; eassumption. Qed.

(** Every tidy block by itself, wherever it stands outside a list, or anywhere
    if it is a quote, an alert, a list or a code block. *)
Theorem C40_block : forall U PN ENT o B src ends_nl checks n next s s', tidy U o src n ->
  list_type (cx s) = None \/ match node_value n with NList _ _ | NCodeBlock _ _ | NBlockQuote | NAlert _ => True | _ => False end ->
  serialize U PN ENT o B src ends_nl checks next n s = Ok s' -> ends_once (output s').
Proof.
  intros U PN ENT o B src ends_nl checks n next s s' T H. apply tidy_ends; [exact T|]. destruct H as [H|H]; [left; exact H|right].
  unfold ends_with_newline_kind. destruct (node_value n); try destruct H; reflexivity.
Qed.
Print Assumptions C40_one_newline_partial.
Print Assumptions C40_block.

Definition out40 (src : list str) (cs : list node) : res str :=
  rbind (serialize_root uni_ascii [] (fun _ => None) (opts31 80) (Wasm None) src true true (Node NDocument (mkPos 1 1 1 1) cs))
    (fun s => Ok (output s)).
Definition at40 (l : nat) (v : value) (cs : list node) : node := Node v (mkPos l 1 l 1) cs.
Definition text40 (l : nat) (t : str) : node := Node (NText t) (mkPos 0 0 0 0) [].
Definition par40 (l : nat) (t : str) : node := Node NParagraph (mkPos l 1 l 1) [text40 l t].


Lemma once_rev : forall s, ends_once s -> exists c r, rev s = c_nl :: c :: r /\ c <> c_nl.
Proof. intros s (x & c & -> & N). exists c, (rev x). rewrite rev_app_distr. auto. Qed.
Ltac not_once := let H := fresh in intro H; apply once_rev in H; destruct H as (? & ? & H & ?); vm_compute in H;
  try discriminate H; injection H as <- _; match goal with N : _ <> c_nl |- _ => apply N; reflexivity end.
Lemma no_directs : forall n, directive_of n = None -> forall d, ~ directs n d.
Proof. intros n H d D. apply directs_iff in D. congruence. Qed.
Ltac no_directive := let n := fresh in let d := fresh in let I := fresh in
  intros n d I; cbn [In] in I; repeat (destruct I as [<-|I]; [apply no_directs; reflexivity|]); destruct I.

(** ** Examples *)
(** A heading, a list whose last item is two paragraphs, a link, a footnote of
    one word and one of a word, an empty quote and a list with code in it. *)
Definition cs40 : list node :=
  [at40 1 (NHeading 3) [text40 1 (lit "a")];
   Node NParagraph (mkPos 3 1 3 1)
     [Node (NLink (lit "https://x.y") []) (mkPos 0 0 0 0) [text40 3 (lit "b")]; text40 3 (lit "; c");
      Node (NFootnoteReference (lit "1")) (mkPos 3 5 3 8) []; Node (NFootnoteReference (lit "2")) (mkPos 3 9 3 12) []];
   at40 5 (NList Bullet true) [at40 5 NItem [par40 5 (lit "d"); par40 7 (lit "e")]];
   at40 9 (NFootnoteDefinition (lit "1")) [par40 9 (lit "f")];
   at40 11 (NFootnoteDefinition (lit "2"))
     [at40 13 NBlockQuote []; at40 15 (NList Bullet true) [at40 15 NItem [at40 15 (NCodeBlock [] (lit "h" ++ [c_nl])) []]]]].
Definition src40 : list str := [lit "### a"; []; lit "x"; []; lit "- d"; []; lit "  e"; []; lit "[^1]: f"; []; lit "[^2]:"].
Example C40_witness :
  tidy uni_ascii (opts31 80) src40 (nth 2 cs40 (par40 0 []))
  /\ Forall note_definition (skipn 3 cs40) /\ forallb no_document cs40 = true
  /\ (forall n d, In n cs40 -> directs n d -> formats d)
  /\ links_on_line (Node NDocument (mkPos 1 1 1 1) cs40) /\ Forall (fun n => notes_plain n \/ filled_note n) cs40
  /\ ~ notes_plain (Node NDocument (mkPos 1 1 1 1) cs40)
  /\ out40 src40 cs40 = Ok (lit "### a" ++ [c_nl; c_nl] ++ lit "[b]; c[^1][^2]" ++ [c_nl; c_nl] ++ lit " -  d" ++ [c_nl; c_nl] ++ lit "    e" ++ [c_nl; c_nl]
       ++ lit "[^1]: f" ++ [c_nl] ++ lit "[^2]: " ++ [c_nl; c_nl] ++ lit "       -  " ++ [c_nl; c_nl] ++ lit "          ~~~~" ++ [c_nl] ++ lit "          h" ++ [c_nl] ++ lit "          ~~~~" ++ [c_nl; c_nl]
       ++ lit "[b]: https://x.y" ++ [c_nl]).
Proof.
  split.
  { apply (td_list_paragraph _ _ _ _ _ _ [] _ _ [par40 5 (lit "d")] _ [] (text40 7 (lit "e"))).
    - left. reflexivity.
    - apply (fi_text _ _ [] 101%N). split; [reflexivity|discriminate].
    - intros s E a b Q. vm_compute in E. injection E as <-.
      apply (f_equal (@List.length char)) in Q. rewrite !app_length in Q. cbn [List.length lit] in Q. cbn in Q. lia. }
  split. { repeat constructor; eexists; reflexivity. }
  split; [reflexivity|]. split.
  { intros n d I D. exfalso. revert D. revert n d I. no_directive. }
  split.
  { intros m url title W V (x & Q). unfold cs40, at40, par40, text40 in W. nodes; destruct V as [V|V]; try discriminate V.
    injection V as <- <-. apply (f_equal (@rev char)) in Q. rewrite rev_app_distr in Q. vm_compute in Q. discriminate Q. }
  split.
  { unfold cs40. repeat apply Forall_cons; try apply Forall_nil;
      try (left; intros m name W V; unfold at40, par40, text40 in W; nodes; discriminate V).
    - left. intros m name W V. unfold at40, par40, text40 in W. nodes; try discriminate V. injection V as <-. split.
      + intros c [<-|[]]. exact Logic.I.
      + intros a b c x y Q. exfalso. apply (f_equal (@List.length node)) in Q. rewrite !app_length in Q. cbn [node_children List.length] in Q.
        rewrite app_length in Q. cbn [List.length] in Q. lia.
    - right. split; [eexists; reflexivity|]. split.
      + eexists. split; [right; left; reflexivity|]. eapply ik_list; [left; reflexivity|left; reflexivity|left; reflexivity|]. apply ik_code.
      + repeat apply Forall_cons; try apply Forall_nil; intros m name W V; unfold at40, par40, text40 in W; nodes; discriminate V. }
  split; [|vm_compute; reflexivity].
  intro P. destruct (P (nth 4 cs40 (par40 0 [])) (lit "2")) as [H _].
  - eapply within_below; [do 4 right; left; reflexivity|apply within_here].
  - reflexivity.
  - exact (H _ (or_introl eq_refl)).
Qed.

(** ** Where it fails *)
Definition refutes40 (src : list str) (cs : list node) : Prop :=
  (forall n d, In n cs -> ~ directs n d) /\ exists out, out40 src cs = Ok out /\ ~ ends_once out.
Ltac refute := split; [no_directive|eexists; split; [vm_compute; reflexivity|not_once]].
(** Front matter alone brings two newlines. *)
Definition front40 : str := lit "---" ++ [c_nl] ++ lit "a: 1" ++ [c_nl] ++ lit "---" ++ [c_nl].
Theorem C40_one_newline_refuted : exists src cs, cs <> [] /\ refutes40 src cs.
Proof. exists [lit "---"; lit "a: 1"; lit "---"], [at40 1 (NFrontMatter front40) []]. split; [discriminate|refute]. Qed.
(** An empty quote writes nothing, or one newline too many. *)
Example C40_quote_alone : refutes40 [lit ">"] [at40 1 NBlockQuote []].
Proof. refute. Qed.
Example C40_quote_after : refutes40 [lit "a"; []; lit ">"] [par40 1 (lit "a"); at40 3 NBlockQuote []].
Proof. refute. Qed.
(** Reference definitions alone are dropped: comrak gives no node for them. *)
Example C40_definitions : out40 [lit "[a]: b"] [] = Ok [] /\ ~ ends_once [].
Proof. split; [vm_compute; reflexivity|]. intros (x & c & E & _). destruct x; discriminate E. Qed.
(** An empty heading is two newlines: its underline is empty. *)
Example C40_heading : refutes40 [lit "#"] [at40 1 (NHeading 1) []].
Proof. refute. Qed.
(** A list item that ends in a heading is followed by an empty line. *)
Example C40_item : refutes40 [lit "- ### a"] [at40 1 (NList Bullet true) [at40 1 NItem [at40 1 (NHeading 3) [text40 1 (lit "a")]]]].
Proof. refute. Qed.
(** A footnote that consists of an empty quote leaves a blank line only. *)
Example C40_note : refutes40 [lit "a[^1]"; []; lit "[^1]:"; lit "    >"]
  [par40 1 (lit "a"); at40 3 (NFootnoteDefinition (lit "1")) [at40 4 NBlockQuote []]].
Proof. refute. Qed.
Print Assumptions C40_one_newline_refuted.
