(** C45: formatting a formatted document changes nothing. *)
From Coq Require Import Bool Arith NArith Lia ZifyBool ZifyNat ZifyN String List.
From Verif Require Import Base BaseFacts WrapModel WrapProof OptsModel CodeModel HeadingModel TableModel AstModel StateModel InlineModel WarnModel SerModel
  SpecState SpecDoc SpecNotes SpecCode SpecHeading SpecRefs SpecWrap SpecBlocks SpecEnd SpecStructure SpecAgain StateProof BlocksProof ParaProof NestProof PropsWrap PropsBlocks StructProof PropsStructure
  PropsAgain AgainDoc AgainTop SpecSteady PropsCaseAgain.
From Verif Require DocProof NoteProof.
Import ListNotations.

(** The blocks of the second document are those of the first, read back from
    what was written for them ([SpecAgain.again]), those that directives keep as
    they are have the same source, and footnotes are first referenced on the
    same sides of the places where footnotes are written: then the same is
    written.  (For headings in sentence case see C45_heading_again_partial.)
    Partial: quotes in quotes in items, lists in quotes in quotes and lists in
    the details of descriptions are left out, and that a parser reads the output
    as such a document is assumed; see C44 for the blocks. *)
Theorem C45_document_partial : forall U PN ENT o B src ends_nl checks src' ends_nl' p cs p' cs' s ws,
  width_laws U -> four_columns o -> again_blocks U PN ENT o B src src' ends_nl ends_nl' Format ([], []) cs cs' -> same_sides cs cs' ->
  serialize_root U PN ENT o B src ends_nl checks (Node NDocument p cs) = Ok s ->
  check_undefined checks src' (Node NDocument p' cs') = Ok ws ->
  exists s', serialize_root U PN ENT o B src' ends_nl' checks (Node NDocument p' cs') = Ok s' /\ output s' = output s.
Proof. intros. eapply again_document; eassumption. Qed.
Print Assumptions C45_document_partial.

(** The whole formatter: formatting the output gives the output. *)
Theorem C45_format_partial : forall U PN ENT parse o B checks input out warns p cs p' cs' ws,
  width_laws U -> four_columns o -> format_with_warnings U PN ENT parse o B checks input = Ok (out, warns) ->
  parse input = Node NDocument p cs -> parse out = Node NDocument p' cs' ->
  again_blocks U PN ENT o B (lines input) (lines out) (ends_with_newline input) (ends_with_newline out) Format ([], []) cs cs' -> same_sides cs cs' ->
  check_undefined checks (lines out) (parse out) = Ok ws ->
  exists warns', format_with_warnings U PN ENT parse o B checks out = Ok (out, warns').
Proof.
  intros U PN ENT parse o B checks input out warns p cs p' cs' ws W Fc E P P' F Sd Ck. unfold format_with_warnings in *.
  destruct (is_nil out) eqn:N; [destruct out; [eexists; reflexivity|discriminate]|].
  destruct (is_nil input); [injection E as <- <-; discriminate|]. rewrite P in E. rewrite P' in *. unfold rbind in E at 1.
  destruct (serialize_root U PN ENT o B (lines input) (ends_with_newline input) checks (Node NDocument p cs)) as [s|] eqn:R; [|discriminate].
  injection E as <- <-.
  destruct (C45_document_partial U PN ENT o B _ _ checks _ (ends_with_newline (output s)) p cs p' cs' s ws W Fc F Sd R Ck) as (s' & R' & Eo).
  rewrite R'. cbn [rbind]. rewrite Eo. eexists. reflexivity.
Qed.
Print Assumptions C45_format_partial.

(** ** Example *)
Definition nd (v : value) (a b c d : nat) (cs : list node) : node := Node v (mkPos a b c d) cs.
Definition tx (t : str) (l a : nat) : node := nd (NText t) l a l (a + List.length t - 1) [].
Definition doc45 (cs : list node) : node := nd NDocument 1 1 1 1 cs.
Definition first45 : str := lit "A paragraph that goes on until it is longer than the eighty columns a line may".
Definition second45 : str := lit "have, in one line of the source.".
Definition input45 : str := text_of [lit "# Title"; []; first45 ++ [c_sp] ++ second45; []; lit "- one [link](https://example.com/) item"; lit "- two"; []; lit "  ~~~";
  lit "  code"; lit "  ~~~"; []; lit "> quote"].
Definition tree45 : list node :=
  [nd (NHeading 1) 1 1 1 7 [tx (lit "Title") 1 3];
   nd NParagraph 3 1 3 111 [tx (first45 ++ [c_sp] ++ second45) 3 1];
   nd (NList Bullet false) 5 1 10 5
     [nd NItem 5 1 5 39 [nd NParagraph 5 3 5 39 [tx (lit "one ") 5 3; nd (NLink (lit "https://example.com/") []) 5 7 5 34 [tx (lit "link") 5 8]; tx (lit " item") 5 35]];
      nd NItem 6 1 10 5 [nd NParagraph 6 3 6 5 [tx (lit "two") 6 3]; nd (NCodeBlock [] (lit "code" ++ [c_nl])) 8 3 10 5 []]];
   nd NBlockQuote 12 1 12 7 [nd NParagraph 12 3 12 7 [tx (lit "quote") 12 3]]].
Definition output45 : str := text_of [lit "Title"; lit "====="; []; first45; second45; []; lit " -  one [link] item"; []; lit " -  two"; []; lit "    ~~~~";
  lit "    code"; lit "    ~~~~"; []; lit "> quote"; []; lit "[link]: https://example.com/"].
Definition tree45_again : list node :=
  [nd (NHeading 1) 1 1 2 5 [tx (lit "Title") 1 1];
   nd NParagraph 4 1 5 32 [tx first45 4 1; nd NSoftBreak 4 79 4 79 []; tx second45 5 1];
   nd (NList Bullet false) 7 2 13 8
     [nd NItem 7 2 7 19 [nd NParagraph 7 5 7 19 [tx (lit "one ") 7 5; nd (NLink (lit "https://example.com/") []) 7 9 7 14 [tx (lit "link") 7 10]; tx (lit " item") 7 15]];
      nd NItem 9 2 13 8 [nd NParagraph 9 5 9 7 [tx (lit "two") 9 5]; nd (NCodeBlock [] (lit "code" ++ [c_nl])) 11 5 13 8 []]];
   nd NBlockQuote 15 1 15 7 [nd NParagraph 15 3 15 7 [tx (lit "quote") 15 3]]].
Definition parse45 (s : str) : node := doc45 (if seqb s output45 then tree45_again else tree45).
Definition format45 (s : str) : res (str * list warning) :=
  format_with_warnings uni_ascii [] (fun _ => None) parse45 default_options (Wasm None) true s.
Example C45_format_example : format45 input45 = Ok (output45, []) /\ format45 output45 = Ok (output45, []) /\ input45 <> output45.
Proof. split; [vm_compute; reflexivity|]. split; [vm_compute; reflexivity|]. intro K. vm_compute in K. discriminate K. Qed.

Lemma unstarred_ok : forall ls p, match extract_source ls p with Ok (Some s) => negb (starts_with (lit "*[") (trim_start s)) | _ => true end = true -> unstarred ls p.
Proof.
  intros ls p H s E a b Fa ->. rewrite E in H. apply negb_true_iff in H.
  assert (Q : trim_start (a ++ lit "*[" ++ b) = lit "*[" ++ b).
  { clear - Fa. induction Fa as [|c a W F IH]; [reflexivity|]. unfold trim_start in *. cbn [app drop_while]. rewrite W. exact IH. }
  rewrite Q in H. cbn in H. discriminate H.
Qed.
Ltac para45 x x' := eapply (ag_para _ _ _ _ _ _ _ _ _ _ _ _ _ _ _ x x');
  [apply unstarred_ok; vm_compute; reflexivity|apply unstarred_ok; vm_compute; reflexivity|let K := fresh in intro K; vm_compute in K; discriminate K
  |vm_compute; reflexivity|vm_compute; reflexivity|split; [apply single_spaced_ok; vm_compute; reflexivity|vm_compute; reflexivity]].
Ltac ordinary45 := split; [intros [? X]; discriminate X|split; [intros [[? X] _]; discriminate X|intros ? (? & ? & X & _); discriminate X]].
Ltac block45 := apply ab_block; [ordinary45|reflexivity| |cbn [after_block]].
Lemma again45 : again_blocks uni_ascii [] (fun _ => None) default_options (Wasm None) (lines input45) (lines output45) true true Format ([], []) tree45 tree45_again.
Proof.
  block45; [|block45; [|block45; [|block45; [|constructor]]]].
  - eapply (ag_head _ _ _ _ _ _ _ _ _ _ _ _ _ _ (lit "Title") (lit "Title") []); vm_compute; reflexivity.
  - para45 (first45 ++ [c_sp] ++ second45) (first45 ++ [soft] ++ second45).
  - apply ag_list; [lia|]. constructor; [|constructor; [|constructor]].
    + apply ag_item; [cbn; auto|]. constructor; [|constructor]. para45 (lit "one [link] item") (lit "one [link] item").
    + apply ag_item; [cbn; split; [intros (k & t & K); discriminate K|auto]|]. constructor; [|constructor; [|constructor]].
      * para45 (lit "two") (lit "two").
      * apply ag_code. split; [reflexivity|]. intros k content calls failed H. exists calls, failed. split; [exact H|reflexivity].
  - apply ag_quote; [auto|]. constructor; [|constructor]. para45 (lit "quote") (lit "quote").
Qed.
Example C45_format_again : exists warns, format45 output45 = Ok (output45, warns).
Proof.
  eapply (C45_format_partial uni_ascii [] (fun _ => None) parse45 default_options (Wasm None) true input45 output45 []);
    [exact uni_ascii_width|split; cbn; lia|vm_compute; reflexivity|unfold parse45|unfold parse45|exact again45|intros ? ? ? ? ? _ _ Q; destruct Q|].
  - replace (seqb input45 output45) with false by (vm_compute; reflexivity). reflexivity.
  - replace (seqb output45 output45) with true by (vm_compute; reflexivity). reflexivity.
  - vm_compute. reflexivity.
Qed.

(** A description: the first line of the details is laid out as if its marker
    had no width, in both runs. *)
Definition term45 : list node := [tx (lit "Term ") 1 1; nd NEmph 1 6 1 10 [tx (lit "one") 1 7]].
Definition described45 (q : list node) (a b : nat) : list node :=
  [nd NDescriptionList 1 1 (a + 4) 5 [nd NDescriptionItem 1 1 (a + 4) 5 [nd NDescriptionTerm 1 1 1 10 [nd NParagraph 1 1 1 10 term45];
     nd NDescriptionDetails a 1 (a + 4) 5 [nd NParagraph a 5 b 9 q; nd (NCodeBlock [] (lit "code" ++ [c_nl])) (b + 2) 5 (b + 4) 8 []]]]].
Definition described_before : list node := described45 [tx (first45 ++ [c_sp] ++ second45) 3 3] 3 3.
Definition described_after : list node := described45 [tx first45 2 5; nd NSoftBreak 2 83 2 83 []; tx second45 3 5] 2 3.
Definition described_source : list str := [lit "Term *one*"; []; lit ": " ++ first45 ++ [c_sp] ++ second45; []; lit "  ~~~"; lit "  code"; lit "  ~~~"].
Definition described_output : str :=
  text_of [lit "Term *one*"; lit ":   " ++ first45; lit "    " ++ second45; []; lit "    ~~~~"; lit "    code"; lit "    ~~~~"].
Example C45_described : out44 default_options described_source described_before = Ok described_output.
Proof. vm_compute. reflexivity. Qed.
Example C45_described_again : exists s',
  serialize_root uni_ascii [] (fun _ => None) default_options (Wasm None) (lines described_output) true false (doc45 described_after) = Ok s'
  /\ output s' = described_output.
Proof.
  destruct (serialize_root uni_ascii [] (fun _ => None) default_options (Wasm None) described_source true false (doc45 described_before)) as [s|] eqn:E;
    [|vm_compute in E; discriminate E].
  assert (Eo : output s = described_output) by (vm_compute in E; injection E as <-; vm_compute; reflexivity).
  destruct (C45_document_partial uni_ascii [] (fun _ => None) default_options (Wasm None) described_source true false (lines described_output) true
    (mkPos 1 1 1 1) described_before (mkPos 1 1 1 1) described_after s []) as (s' & E' & Eo'); [exact uni_ascii_width|split; cbn; lia| |intros ? ? ? ? ? _ _ Q; destruct Q|exact E|vm_compute; reflexivity|exists s'; split; [exact E'|rewrite Eo'; exact Eo]].
  block45; [|constructor]. apply ag_describe. constructor; [|constructor]. apply ag_entry; [reflexivity| | |].
  - para45 (lit "Term *one*") (lit "Term *one*").
  - repeat constructor.
  - constructor; [|constructor; [|constructor]].
    + para45 (first45 ++ [c_sp] ++ second45) (first45 ++ [soft] ++ second45).
    + apply ag_code. split; [reflexivity|]. intros k content calls failed H. exists calls, failed. split; [exact H|reflexivity].
Qed.

(** Sentence case: a heading that is read back with the text that was written
    for it is a heading read back, where C52 holds. *)
Theorem C45_heading_again_partial : forall U PN ENT o B src src' ns lo up w level p cs p' cs' t evs,
  simple_case U lo up -> listed U PN -> settled_nouns PN (heading_proper_nouns o ++ fst ns) -> heading_sentence_case o = true ->
  settled_text U PN (heading_proper_nouns o ++ fst ns) (heading_common_nouns o ++ snd ns) t ->
  collect_text U ENT o src (Node (NHeading level) p cs) = Ok (t, evs) ->
  collect_text U ENT o src' (Node (NHeading level) p' cs')
    = Ok (to_sentence_case U PN (heading_proper_nouns o ++ fst ns) (heading_common_nouns o ++ snd ns) t, evs) ->
  again U PN ENT o B src src' ns w (Node (NHeading level) p cs) (Node (NHeading level) p' cs').
Proof.
  intros U PN ENT o B src src' ns lo up w level p cs p' cs' t evs L HL HN Sc S0 E E'. eapply ag_head; [exact E|exact E'|].
  unfold cased. rewrite Sc. eapply C52_sentence_case_again_partial; eassumption.
Qed.
Print Assumptions C45_heading_again_partial.
Definition options45 : Options :=
  let o := default_options in
  mkOptions (line_width o) (setext_h1 o) (setext_h2 o) true [lit "Foo"] [] (unordered_marker o) (leading_spaces o) (trailing_spaces o) (indent_width o)
    (odd_level_marker o) (even_level_marker o) (ordered_list_pad o) (ordered_list_indent_width o) (fence_char o) (min_fence_length o) (space_after_fence o)
    (default_language o) (thematic_break_style o) (thematic_break_leading_spaces o) (curly_double_quotes o) (curly_single_quotes o) (curly_apostrophes o)
    (ellipsis o) (en_dash o) (em_dash o) (code_formatters o).
Definition nouns45 : str := lit "<!-- hongdown-proper-nouns: GitHub -->".
Definition cased_source : list str := [lit "# The Foo Of Github"; []; nouns45; []; lit "## Using Github: the Bar"].
Definition cased_doc (a b c : nat) (t u : str) : list node :=
  [nd (NHeading 1) 1 1 1 (2 + List.length t) [tx t 1 3]; nd (NHtmlBlock (nouns45 ++ [c_nl])) a 1 a 38 []; nd (NHeading 2) b 1 c (3 + List.length u) [tx u b 4]].
Definition cased_before : list node := cased_doc 3 5 5 (lit "The Foo Of Github") (lit "Using Github: the Bar").
Definition cased_after : list node := cased_doc 4 7 8 (lit "The Foo of github") (lit "Using GitHub: the bar").
Definition cased_output : str :=
  text_of [lit "The Foo of github"; repc c_eq 17; []; nouns45; []; []; lit "Using GitHub: the bar"; repc c_dash 21].
Example C45_cased : out44 options45 cased_source cased_before = Ok cased_output.
Proof. vm_compute. reflexivity. Qed.
Example C45_cased_again : exists s',
  serialize_root uni_ascii [] (fun _ => None) options45 (Wasm None) (lines cased_output) true false (doc45 cased_after) = Ok s'
  /\ output s' = cased_output.
Proof.
  destruct (serialize_root uni_ascii [] (fun _ => None) options45 (Wasm None) cased_source true false (doc45 cased_before)) as [s|] eqn:E;
    [|vm_compute in E; discriminate E].
  assert (Eo : output s = cased_output) by (vm_compute in E; injection E as <-; vm_compute; reflexivity).
  destruct (C45_document_partial uni_ascii [] (fun _ => None) options45 (Wasm None) cased_source true false (lines cased_output) true
    (mkPos 1 1 1 1) cased_before (mkPos 1 1 1 1) cased_after s []) as (s' & E' & Eo');
    [exact uni_ascii_width|split; cbn; lia| |intros ? ? ? ? ? _ _ Q; destruct Q|exact E|vm_compute; reflexivity|exists s'; split; [exact E'|rewrite Eo'; exact Eo]].
  assert (Nn : forall l, Forall (fun n => In n [lit "Foo"; lit "GitHub"]) l -> settled_nouns [] l).
  { intros l F n I. cbn [map app] in I. rewrite Forall_forall in F. specialize (F n I). destruct F as [<-|[<-|[]]]; (split; [discriminate|]);
      intros r q c [->| ->] [->| ->] K; apply (f_equal (@rev N)) in K; rewrite rev_app_distr in K; cbn in K; discriminate K. }
  block45; [|eapply ab_directive; [apply DocProof.directs_iff; vm_compute; reflexivity|discriminate|reflexivity|]; cbn [after_directive after_nouns]; block45; [|constructor]].
  - eapply (C45_heading_again_partial _ _ _ _ _ _ _ _ _ _ _ _ _ _ _ _ (lit "The Foo Of Github") []);
      [exact ascii_simple|constructor|apply Nn; cbn; repeat constructor; cbn [In]; tauto|reflexivity|apply looks_settled_ok; vm_compute; reflexivity|vm_compute; reflexivity|vm_compute; reflexivity].
  - eapply (C45_heading_again_partial _ _ _ _ _ _ _ _ _ _ _ _ _ _ _ _ (lit "Using Github: the Bar") []);
      [exact ascii_simple|constructor|apply Nn; cbn; repeat constructor; cbn [In]; tauto|reflexivity|apply looks_settled_ok; vm_compute; reflexivity|vm_compute; reflexivity|vm_compute; reflexivity].
Qed.

(** Footnotes and directives. *)
Definition noted_source : list str := [lit "See[^1] it."; []; lit "<!-- hongdown-disable-next-line -->"; []; lit "odd   text"; []; lit "## Part"; []; lit "More[^2]."; [];
  lit "[^2]: Two"; lit "    words."; []; lit "[^1]: Note with a [link](https://example.com/)."].
Definition noted_doc (a b c d e f g h : nat) (k : list node) (two : list node) : list node :=
  [nd NParagraph a 1 a 11 [tx (lit "See") a 1; nd (NFootnoteReference (lit "1")) a 4 a 7 []; tx (lit " it.") a 8];
   nd (NHtmlBlock (lit "<!-- hongdown-disable-next-line -->" ++ [c_nl])) b 1 b 35 [];
   nd NParagraph c 1 c 10 [tx (lit "odd   text") c 1];
   nd (NHeading 2) d 1 e 4 [tx (lit "Part") d 4];
   nd NParagraph f 1 f 9 [tx (lit "More") f 1; nd (NFootnoteReference (lit "2")) f 5 f 8 []; tx (lit ".") f 9];
   nd (NFootnoteDefinition (lit "1")) h 1 h 40 [nd NParagraph h 7 h 40 k];
   nd (NFootnoteDefinition (lit "2")) g 1 g 9 [nd NParagraph g 7 g 9 two]].
Definition noted_before : list node := noted_doc 1 3 5 7 7 9 11 14
  [tx (lit "Note with a ") 14 7; nd (NLink (lit "https://example.com/") []) 14 19 14 46 [tx (lit "link") 14 20]; tx (lit ".") 14 47]
  [tx (lit "Two") 11 7; nd NSoftBreak 11 10 11 10 []; tx (lit "words.") 12 5].
Definition noted_after : list node := noted_doc 1 7 9 12 13 15 17 3
  [tx (lit "Note with a ") 3 7; nd (NLink (lit "https://example.com/") []) 3 19 3 24 [tx (lit "link") 3 20]; tx (lit ".") 3 25]
  [tx (lit "Two words.") 17 7].
Definition noted_output : str := text_of [lit "See[^1] it."; []; lit "[^1]: Note with a [link]."; []; lit "[link]: https://example.com/"; [];
  lit "<!-- hongdown-disable-next-line -->"; []; lit "odd   text"; []; []; lit "Part"; lit "----"; []; lit "More[^2]."; []; lit "[^2]: Two words."].
Example C45_noted : out44 default_options noted_source noted_before = Ok noted_output.
Proof. vm_compute. reflexivity. Qed.
Lemma no_blocks45 : forall cs, footnote_has_blocks cs = false -> ~ has_blocks cs.
Proof. intros cs H K. apply NoteProof.has_blocks_iff in K. congruence. Qed.
Example C45_noted_again : exists s',
  serialize_root uni_ascii [] (fun _ => None) default_options (Wasm None) (lines noted_output) true false (doc45 noted_after) = Ok s'
  /\ output s' = noted_output.
Proof.
  destruct (serialize_root uni_ascii [] (fun _ => None) default_options (Wasm None) noted_source true false (doc45 noted_before)) as [s|] eqn:E;
    [|vm_compute in E; discriminate E].
  assert (Eo : output s = noted_output) by (vm_compute in E; injection E as <-; vm_compute; reflexivity).
  destruct (C45_document_partial uni_ascii [] (fun _ => None) default_options (Wasm None) noted_source true false (lines noted_output) true
    (mkPos 1 1 1 1) noted_before (mkPos 1 1 1 1) noted_after s []) as (s' & E' & Eo'); [exact uni_ascii_width|split; cbn; lia| | |exact E|vm_compute; reflexivity|exists s'; split; [exact E'|rewrite Eo'; exact Eo]].
  - block45; [para45 (lit "See[^1] it.") (lit "See[^1] it.")|].
    eapply ab_directive; [apply DocProof.directs_iff; vm_compute; reflexivity|discriminate|reflexivity|]. cbn [after_directive].
    eapply (ab_kept _ _ _ _ _ _ _ _ _ _ _ _ _ _ _ (lit "odd   text")); [ordinary45|reflexivity| |vm_compute; reflexivity|vm_compute; reflexivity|].
    { split; [intro l; split; discriminate|]. split; [intro l; split; discriminate|]. split; [split; intros [x X]; discriminate X|intros [x X]; discriminate X]. }
    cbn [after_block].
    block45; [eapply (ag_head _ _ _ _ _ _ _ _ _ _ _ _ _ _ (lit "Part") (lit "Part") []); vm_compute; reflexivity|].
    block45; [para45 (lit "More[^2].") (lit "More[^2].")|].
    apply ab_note; [eapply (an_text _ _ _ _ _ _ _ _ _ _ _ _ (lit "Note with a [link].") (lit "Note with a [link]."));
      [apply no_blocks45; reflexivity|apply no_blocks45; reflexivity|vm_compute; reflexivity|vm_compute; reflexivity|reflexivity]|].
    apply ab_note; [eapply (an_text _ _ _ _ _ _ _ _ _ _ _ _ (lit "Two" ++ [soft] ++ lit "words.") (lit "Two words."));
      [apply no_blocks45; reflexivity|apply no_blocks45; reflexivity|vm_compute; reflexivity|vm_compute; reflexivity|vm_compute; reflexivity]|].
    constructor.
  - assert (K : forall name refs l, first_line name refs l -> l = NoteProof.line_of refs name).
    { intros name refs l H. induction H as [|l r|x l r m Ne H IH]; [reflexivity|unfold NoteProof.line_of; cbn [assoc_str]; rewrite seqb_refl; reflexivity|].
      rewrite IH. unfold NoteProof.line_of. cbn [assoc_str]. replace (seqb name x) with false; [reflexivity|]. symmetry.
      destruct (seqb name x) eqn:Q; [apply seqb_true in Q; congruence|reflexivity]. }
    intros n n' name l l' I Fl Nm F F'. apply K in F, F'. subst l l'. cbn in Nm. destruct Nm as [<-|[<-|[]]]; cbn in I;
      repeat (destruct I as [I|I]; [injection I as <- <-; first [exfalso; destruct Fl as [V|[V|(d & q & b & V & _)]]; discriminate V|vm_compute; lia]|]); destruct I.
Qed.

(** ** Where a document changes again *)
(** In an item a list below code, without an empty line between them, is
    written after one.  Read back there is an empty line, and two are written. *)
Definition gap45 (a b : nat) : list node :=
  [at44 1 (NList Bullet false) [item44 1 [par44 1 (lit "a"); nd (NCodeBlock [] (lit "x" ++ [c_nl])) a 3 (a + 2) 5 []; at44 b (NList Bullet true) [item44 b [par44 b (lit "b")]]]]].
Definition gap_text (k : nat) : str := text_of ([lit " -  a"; []; lit "    ~~~~"; lit "    x"; lit "    ~~~~"] ++ repeat [] k ++ [lit "     -  b"]).
Theorem C45_list_after_code_refuted : exists src a b a' b', b = a + 3 /\ b' = a' + 4
  /\ out44 default_options src (gap45 a b) = Ok (gap_text 1)
  /\ nth_error (lines (gap_text 1)) (a' - 1) = Some (lit "    ~~~~") /\ nth_error (lines (gap_text 1)) (b' - 1) = Some (lit "     -  b")
  /\ out44 default_options (lines (gap_text 1)) (gap45 a' b') = Ok (gap_text 2).
Proof.
  exists [lit "- a"; []; lit "  ~~~"; lit "  x"; lit "  ~~~"; lit "  - b"], 3, 6, 3, 7. vm_compute. auto 10.
Qed.
Print Assumptions C45_list_after_code_refuted.

(** A footnote that only another footnote refers to is written after the
    section that the source of the other one is in.  The first run moves the
    other footnote up, the second one then moves this one. *)
Definition nested45 (h f a b : nat) : list node :=
  [nd NParagraph 1 1 1 7 [tx (lit "Top") 1 1; nd (NFootnoteReference (lit "a")) 1 4 1 7 []]; nd (NHeading 2) h 1 h 4 [tx (lit "Part") h 4]; par44 f (lit "Text.");
   nd (NFootnoteDefinition (lit "a")) a 1 a 14 [nd NParagraph a 7 a 14 [tx (lit "See") a 7; nd (NFootnoteReference (lit "b")) a 10 a 13 []; tx (lit ".") a 14]];
   nd (NFootnoteDefinition (lit "b")) b 1 b 9 [nd NParagraph b 7 b 9 [tx (lit "Two") b 7]]].
Definition nested_source : list str := [lit "Top[^a]"; []; lit "## Part"; []; lit "Text."; []; lit "[^a]: See[^b]."; []; lit "[^b]: Two"].
Definition nested_once : str := text_of [lit "Top[^a]"; []; lit "[^a]: See[^b]."; []; []; lit "Part"; lit "----"; []; lit "Text."; []; lit "[^b]: Two"].
Definition nested_twice : str := text_of [lit "Top[^a]"; []; lit "[^a]: See[^b]."; lit "[^b]: Two"; []; []; lit "Part"; lit "----"; []; lit "Text."].
Theorem C45_note_in_note_refuted : exists src h f a b h' f' a' b',
  nth_error src (a - 1) = Some (lit "[^a]: See[^b].") /\ nth_error src (b - 1) = Some (lit "[^b]: Two")
  /\ out44 default_options src (nested45 h f a b) = Ok nested_once
  /\ nth_error (lines nested_once) (a' - 1) = Some (lit "[^a]: See[^b].") /\ nth_error (lines nested_once) (b' - 1) = Some (lit "[^b]: Two")
  /\ nth_error (lines nested_once) (h' - 1) = Some (lit "Part") /\ nth_error (lines nested_once) (f' - 1) = Some (lit "Text.")
  /\ out44 default_options (lines nested_once) (nested45 h' f' a' b') = Ok nested_twice.
Proof. exists nested_source, 3, 5, 7, 9, 6, 9, 3, 11. vm_compute. auto 12. Qed.
Print Assumptions C45_note_in_note_refuted.
