(** C47: a heading keeps what it says. *)
From Coq Require Import Bool Arith NArith Lia ZifyBool ZifyNat ZifyN String List.
From Verif Require Import Base BaseFacts EscapeModel OptsModel PunctModel WrapModel CodeModel TableModel HeadingModel
  AstModel StateModel InlineModel WarnModel SerModel DocProof SpecHeading PropsHeading SpecText EscapeProof TextProof
  SpecEmph EmphProof PropsState PropsText EmphDoc PropsEmph.
Import ListNotations.

Lemma heading_run : forall U PN ENT o src n level s s',
  heading U PN ENT o src n level s = Ok s' ->
  exists text evs, collect_text U ENT o src n = Ok (text, evs)
    /\ exists nouns commons, output s' = output s ++ heading_output U PN o nouns commons level text.
Proof.
  intros U PN ENT o src n level s s' H. unfold heading, inline in H.
  destruct (collect_text U ENT o src n) as [[text evs]|]; [|discriminate H]. exists text, evs. split; [reflexivity|].
  unfold seqa in H. destruct (all (map do_event evs) s) as [s1|] eqn:E; [|discriminate H]. cbn [rbind] in H.
  apply events_output in E. unfold get, emit, upd in H. exists (proper_nouns s1), (common_nouns s1). injection H as <-.
  cbn [output set_output]. rewrite E. reflexivity.
Qed.

(** C47: without sentence case, a heading of text, code, soft line endings,
    nested emphasis, and links and images of simple text or with a label, placed
    as for C46, is written so that its one line reads as a heading of that level
    with that content.
    Partial: for other inline nodes, and for code, emphasis, images and escaped
    characters in the text of a link, the claim is false (below). *)
Theorem C47_heading_content_partial : forall U PN ENT o src space punct defs notes raw n level s s',
  (forall n m, ENT n = Some m -> n <> [] /\ forallb is_ascii_alnum n = true) ->
  (forall c r, gap c = true -> raw (c :: r) = None) ->
  (forall c n, (c = c_eq \/ c = c_dash) -> u_width U (repeat c n) = n) ->
  1 <= level <= 6 -> heading_sentence_case o = false -> node_value n = NHeading level ->
  Forall (emphatic U ENT o src true) (node_children n) -> apart (node_children n) ->
  heading U PN ENT o src n level s = Ok s' ->
  exists text evs, collect_text U ENT o src n = Ok (text, evs) /\ let used r := In (EvUse r) evs in
    (uses_setext o level = true -> exists under, output s' = output s ++ text ++ [c_nl] ++ under ++ [c_nl]
        /\ (1 <= u_width U text -> read_underline under = Some level))
    /\ (uses_setext o level = false -> exists line, output s' = output s ++ line ++ [c_nl]
        /\ read_atx line = Some (level, text))
    /\ (exists ls, Forall2 (lays U ENT o src true used) (node_children n) ls /\ joined src true (node_children n) ls /\ text = spell ls)
    /\ forall ls, Forall2 (lays U ENT o src true used) (node_children n) ls -> text = spell ls ->
       placed ENT space punct defs notes raw [] None ls None ->
       exists xs, Forall2 (says U o) (node_children n) xs
         /\ read_inlines ENT space punct defs notes raw text = List.concat xs.
Proof.
  intros U PN ENT o src space punct defs notes raw n level s s' N G W L SC V E A H.
  destruct (heading_run _ _ _ _ _ _ _ _ _ H) as (text & evs & CT & nouns & commons & OUT).
  destruct (C29_heading U PN o nouns commons level text W L) as (shown & SH & SX & AT). rewrite SC in SH. subst shown.
  exists text, evs. split; [exact CT|]. intro used. split; [|split; [|split]].
  - intro X. destruct (SX X) as (under & -> & _ & R) in OUT. exists under. rewrite OUT. split; [reflexivity|exact R].
  - intro X. destruct (AT X) as (line & -> & R) in OUT. exists line. rewrite OUT. split; [reflexivity|exact R].
  - assert (K : wcat (with_next (collect U ENT o src true) (node_children n)) = Ok (text, evs)).
    { destruct n as [v p cs]. cbn [node_value] in V. subst v. cbn [collect_text] in CT. cbn [node_children].
      rewrite <- CT. unfold collect. rewrite with_next_map. reflexivity. }
    destruct (laid_out U ENT N o src true used _ text evs E (fun r I => I) K) as (ls & F & J & S0). exists ls. auto.
  - intros ls F -> P. destruct (lays_list U ENT o src true used _ ls F A) as [(xs & X & C) Q]. exists xs. split; [exact X|].
    rewrite <- C. apply placed_reads; assumption.
Qed.
Print Assumptions C47_heading_content_partial.

Definition src47 : list str := [lit "### Some _text_ with **bold _and_ `co*de`** in [the docs](u ""T""), [*x*]"].
Definition head47 : node :=
  nd46 (NHeading 3) 1 71
    [t46 "Some " 5 9; nd46 NEmph 10 15 [t46 "text" 11 14]; t46 " with " 16 21;
     nd46 NStrong 22 43 [t46 "bold " 24 28; nd46 NEmph 29 33 [t46 "and" 30 32]; t46 " " 34 34;
                         nd46 (NCode (lit "co*de")) 35 41 []];
     t46 " in " 44 47; nd46 (NLink (lit "u") (lit "T")) 48 64 [t46 "the docs" 49 56]; t46 ", " 65 66;
     nd46 (NLink (lit "v") []) 67 71 [nd46 NEmph 68 70 [t46 "x" 69 69]]].
Definition lay47 : list lay :=
  [P46 "Some "; LMark false c_us [P46 "text"]; P46 " with ";
   LMark true c_star [P46 "bold "; LMark false c_us [P46 "and"]; P46 " "; LCode (lit "`co*de`") (lit "co*de")];
   P46 " in "; LLink false [P46 "the docs"] (Inline (lit "u") (lit "T")) (lit "u") (lit "T"); P46 ", ";
   LLink false [LMark false c_star [P46 "x"]] Shortcut (lit "v") []].
Definition defs47 : list (string * (string * string)) := [("*x*", ("v", ""))]%string.
Example C47_example :
  (exists s', heading uni_ascii [] ent42 default_options src47 head47 3 init_st = Ok s'
     /\ output s' = hd [] src47 ++ [c_nl])
  /\ Forall (emphatic uni_ascii ent42 default_options src47 true) (node_children head47)
  /\ apart (node_children head47)
  /\ read_atx (hd [] src47) = Some (3, spell lay47)
  /\ placed ent42 space46 is_ascii_punct (among defs47) notes46 raw46 [] None lay47 None
  /\ read_with defs47 (spell lay47) = flat_map verbatim (node_children head47).
Proof.
  split; [eexists; split; vm_compute; reflexivity|]. split.
  { cbn [head47 node_children nd46 t46].
    apply Forall_cons; [text_ok "Some "%string|].
    apply Forall_cons; [split; [split; [exact Logic.I|exact Logic.I]|split; [text_ok "text"%string|exact Logic.I]]|].
    apply Forall_cons; [text_ok " with "%string|].
    apply Forall_cons.
    { split; [cbn; repeat split|]. split; [text_ok "bold "%string|].
      split; [split; [split; exact Logic.I|split; [text_ok "and"%string|exact Logic.I]]|].
      split; [text_ok " "%string|]. split; [|exact Logic.I]. split; [not_in|].
      exists (lit "`co*de`"). split; [vm_compute; reflexivity|]. split; [vm_compute; reflexivity|]. not_in. }
    apply Forall_cons; [text_ok " in "%string|].
    apply Forall_cons.
    { split; [not_in|]. split; [not_in|]. eexists. split; [vm_compute; reflexivity|]. split; [not_in|].
      right. split.
      - intros _. right. exists false, (lit "the docs"), (lit "u ""T"")"). split; vm_compute; reflexivity.
      - apply Forall_cons; [|apply Forall_nil]. vm_compute. repeat (apply Forall_cons; [repeat split; discriminate|]). apply Forall_nil. }
    apply Forall_cons; [text_ok ", "%string|].
    apply Forall_cons; [|apply Forall_nil].
    split; [not_in|]. split; [not_in|]. eexists. split; [vm_compute; reflexivity|]. split; [not_in|].
    left. split; [reflexivity|]. exists (lit "*x*").
    split; [exists []; split; [vm_compute; reflexivity|split; [vm_compute; reflexivity|discriminate]]|].
    exists [LMark false c_star [P46 "x"]].
    split; [|split; vm_compute; reflexivity]. split; [|exact Logic.I]. split; [reflexivity|].
    split; [|exact Logic.I]. split; [|intros c K; injection K as <-; reflexivity].
    split; [vm_compute; reflexivity|]. intros c K [I|[]]; injection I as <-; discriminate K. }
  split; [cbn; repeat split|]. split; [vm_compute; reflexivity|]. split; [placed_ok|].
  vm_compute; reflexivity.
Qed.

(** ** Refutations: what a heading loses *)

Definition run47 (src : list str) (cs : list node) : res str :=
  rbind (serialize_root uni_ascii [] ent42 default_options (Wasm None) src true true (nd46 NDocument 1 1 cs))
    (fun s => Ok (output s)).
(** [part] is a node of a heading of the document, the source has it at its
    position as [written], and what comes out has it nowhere. *)
Inductive below : node -> node -> Prop :=
| below_self : forall n, below n n
| below_kid : forall n c m, In c (node_children n) -> below c m -> below n m.
Definition lost47 (part : value) (written : string) (src : list str) (cs : list node) (out : list string) : Prop :=
  (exists h level p kids, In h cs /\ node_value h = NHeading level /\ below h (Node part p kids)
     /\ extract_source src p = Ok (Some (lit written)))
  /\ run47 src cs = Ok (flat_map (fun l => lit l ++ [c_nl]) out)
  /\ contains_sub (lit written) (flat_map (fun l => lit l ++ [c_nl]) out) = false.

(** Inline HTML: [<br>] between two words is dropped and the words run
    together. *)
Theorem C47_html_refuted : exists src cs out, lost47 (NHtmlInline (lit "<br>")) "<br>" src cs out.
Proof.
  exists [lit "### Line<br>break"].
  exists [nd46 (NHeading 3) 1 17 [t46 "Line" 5 8; nd46 (NHtmlInline (lit "<br>")) 9 12 []; t46 "break" 13 17]].
  exists ["### Linebreak"%string]. split; [|split; vm_compute; reflexivity].
  do 4 eexists. split; [left; reflexivity|]. split; [reflexivity|].
  split; [eapply below_kid; [right; left; reflexivity|apply below_self]|vm_compute; reflexivity].
Qed.
Print Assumptions C47_html_refuted.

(** A footnote reference is dropped; its note stays, and nothing refers to it:
    the reference has been in the heading and the mark of the note is all that
    comes out of its name. *)
Theorem C47_footnote_refuted : exists src cs,
  src = [lit "### One[^1] two"; []; lit "[^1]: Note."]
  /\ cs = [nd46 (NHeading 3) 1 15 [t46 "One" 5 7; nd46 (NFootnoteReference (lit "1")) 8 11 []; t46 " two" 12 15];
           Node (NFootnoteDefinition (lit "1")) (mkPos 3 1 3 11)
             [Node NParagraph (mkPos 3 7 3 11) [Node (NText (lit "Note.")) (mkPos 3 7 3 11) []]]]
  /\ run47 src cs = Ok (lit "### One two" ++ [c_nl; c_nl] ++ lit "[^1]: Note." ++ [c_nl]).
Proof. do 2 eexists. split; [reflexivity|]. split; [reflexivity|]. vm_compute. reflexivity. Qed.
Print Assumptions C47_footnote_refuted.

(** Code in the text of a link is dropped with its content. *)
Theorem C47_link_code_refuted : exists src cs out, lost47 (NCode (lit "x")) "`x`" src cs out.
Proof.
  exists [lit "### [the `x` key](u)"].
  exists [nd46 (NHeading 3) 1 20
            [nd46 (NLink (lit "u") []) 5 20 [t46 "the " 6 9; nd46 (NCode (lit "x")) 10 12 []; t46 " key" 13 16]]].
  exists ["### [the  key](u)"%string]. split; [|split; vm_compute; reflexivity].
  do 4 eexists. split; [left; reflexivity|]. split; [reflexivity|].
  split; [eapply below_kid; [left; reflexivity|eapply below_kid; [right; left; reflexivity|apply below_self]]|vm_compute; reflexivity].
Qed.
Print Assumptions C47_link_code_refuted.

(** Emphasis in the text of a link is dropped. *)
Theorem C47_link_emphasis_refuted : exists src cs out, lost47 NEmph "*x*" src cs out.
Proof.
  exists [lit "### [the *x* key](u)"].
  exists [nd46 (NHeading 3) 1 20
            [nd46 (NLink (lit "u") []) 5 20 [t46 "the " 6 9; nd46 NEmph 10 12 [t46 "x" 11 11]; t46 " key" 13 16]]].
  exists ["### [the x key](u)"%string]. split; [|split; vm_compute; reflexivity].
  do 4 eexists. split; [left; reflexivity|]. split; [reflexivity|].
  split; [eapply below_kid; [left; reflexivity|eapply below_kid; [right; left; reflexivity|apply below_self]]|vm_compute; reflexivity].
Qed.
Print Assumptions C47_link_emphasis_refuted.

(** An image in the text of a link is dropped, its description stays. *)
Theorem C47_link_image_refuted : exists src cs out, lost47 (NImage (lit "a.png") []) "![logo](a.png)" src cs out.
Proof.
  exists [lit "### [![logo](a.png)](u)"].
  exists [nd46 (NHeading 3) 1 23
            [nd46 (NLink (lit "u") []) 5 23 [nd46 (NImage (lit "a.png") []) 6 19 [t46 "logo" 8 11]]]].
  exists ["### [logo](u)"%string]. split; [|split; vm_compute; reflexivity].
  do 4 eexists. split; [left; reflexivity|]. split; [reflexivity|].
  split; [eapply below_kid; [left; reflexivity|eapply below_kid; [left; reflexivity|apply below_self]]|vm_compute; reflexivity].
Qed.
Print Assumptions C47_link_image_refuted.

(** A hard line break is dropped, and with it the space between two words. *)
Theorem C47_break_refuted : exists src cs,
  src = [lit "Alpha  "; lit "beta"; lit "----"]
  /\ cs = [Node (NHeading 2) (mkPos 1 1 3 4)
            [Node (NText (lit "Alpha")) (mkPos 1 1 1 5) []; Node NLineBreak (mkPos 1 6 1 7) [];
             Node (NText (lit "beta")) (mkPos 2 1 2 4) []]]
  /\ run47 src cs = Ok (lit "Alphabeta" ++ [c_nl] ++ lit "---------" ++ [c_nl]).
Proof. do 2 eexists. split; [reflexivity|]. split; [reflexivity|]. vm_compute. reflexivity. Qed.
Print Assumptions C47_break_refuted.

(** An escaped character in the text of a link loses its backslash. *)
Theorem C47_link_escape_refuted : exists src cs out text content,
  run47 src cs = Ok (out ++ [c_nl])
  /\ (exists h level, cs = [h] /\ node_value h = NHeading level /\ content = flat_map verbatim (node_children h))
  /\ read_atx (hd [] src) = Some text /\ read_with [] (snd text) = content
  /\ exists text', read_atx out = Some text' /\ read_with [] (snd text') <> content
     /\ flat_map show (read_with [] (snd text')) = lit "<a href='u'><em>a</em></a>".
Proof.
  exists [lit "### [\*a\*](u)"]. exists [nd46 (NHeading 3) 1 14 [nd46 (NLink (lit "u") []) 5 14 [t46 "*a*" 6 10]]].
  exists (lit "### [*a*](u)"), (3, lit "[\*a\*](u)"), [Lnk false [Chr c_star; Chr (97%N); Chr c_star] (lit "u") []].
  split; [vm_compute; reflexivity|]. split; [do 2 eexists; split; [reflexivity|]; split; [reflexivity|vm_compute; reflexivity]|].
  split; [vm_compute; reflexivity|]. split; [vm_compute; reflexivity|].
  exists (3, lit "[*a*](u)"). split; [vm_compute; reflexivity|]. split; [vm_compute; discriminate|vm_compute; reflexivity].
Qed.
Print Assumptions C47_link_escape_refuted.
