(** C58: lines do not end in white space. *)
From Coq Require Import Bool Arith NArith Lia ZifyBool ZifyNat ZifyN String List.
From Verif Require Import Base BaseFacts OptsModel WrapModel CodeModel TableModel HeadingModel AstModel StateModel
  InlineModel WarnModel SerModel SpecCode SpecWrap SpecState SpecDoc SpecSafe SpecEnd SpecTrail SerFacts DocProof EndProof TrailText TrailParts TrailProof TrailDoc
  PropsSafe PropsEnd.
Import ListNotations.

(** C58, for documents of neat blocks: a line of the text ends in white space
    only where a hard line break was written, as two spaces after something
    visible; without hard line breaks ([hard = false]) no line does.  The text
    itself ends in a newline or in something visible.  [neat_child] leaves out:
    items that are empty or begin with a list, a quote, an alert or code,
    details that begin with code, code with blank lines in items in quotes,
    abbreviations, empty headings, definitions of empty addresses, empty
    footnotes, labels, titles and cells of several lines, and directives that
    switch formatting off. *)
Theorem C58_neat_partial : forall U PN ENT o B src ends_nl checks hard p cs s,
  Forall (neat_child U PN ENT o B src hard) cs ->
  serialize_root U PN ENT o B src ends_nl checks (Node NDocument p cs) = Ok s ->
  (forall line c rest, output s = line ++ c :: c_nl :: rest -> is_ws c = true -> c = c_nl \/ hard = true /\ hard_end (line ++ [c]))
  /\ (forall text c, output s = text ++ [c] -> is_ws c = true -> c = c_nl).
Proof.
  intros U PN ENT o B src ends_nl checks hard p cs s G E. destruct (neat_document _ _ _ _ _ _ _ _ _ _ _ _ G E) as [N D]. split.
  - intros line c rest Q W. destruct (N.eq_dec c c_nl) as [->|Nc]; [left; reflexivity|]. right.
    destruct (N (line ++ [c]) rest) as [H|H]; [rewrite <- app_assoc; exact Q| |exact H]. exfalso. apply H. exists line, c. auto.
  - intros text c Q W. destruct (N.eq_dec c c_nl) as [->|Nc]; [reflexivity|]. exfalso. apply D. exists text, c. auto.
Qed.
(** Without hard line breaks. *)
Corollary C58_no_breaks_partial : forall U PN ENT o B src ends_nl checks p cs s,
  Forall (neat_child U PN ENT o B src false) cs ->
  serialize_root U PN ENT o B src ends_nl checks (Node NDocument p cs) = Ok s ->
  forall line c rest, output s = line ++ c :: c_nl :: rest -> is_ws c = true -> c = c_nl.
Proof.
  intros U PN ENT o B src ends_nl checks p cs s G E line c rest Q W.
  destruct (proj1 (C58_neat_partial _ _ _ _ _ _ _ _ _ _ _ _ G E) _ _ _ Q W) as [H|[H _]]; [exact H|discriminate H].
Qed.
(** Wrapping by itself: however narrow the lines, and whatever white space is
    between the words, a wrapped text begins with its prefix and its first
    visible character, and ends its lines in something visible, up to hard
    breaks. *)
Theorem C58_wrap : forall U lw hard t first rest, one_line first -> one_line rest -> full_text t -> (hard = false -> one_line t) ->
  let out := wrap_text_first_line U t first rest lw in
  (exists c r, out = first ++ c :: r /\ is_ws c = false) /\ (exists r c, out = r ++ [c] /\ is_ws c = false)
  /\ forall line c r, out = line ++ c :: c_nl :: r -> is_ws c = true -> c = c_nl \/ hard = true /\ hard_end (line ++ [c]).
Proof.
  intros U lw hard t first rest F R H Hd out. destruct (first_line_shown hard U lw t first rest F R H Hd) as [[[N D] (d & r & E & W)] (x & y & Q & [Y _])].
  split; [eauto|]. split; [eauto|]. intros line c r0 Q2 Wc. destruct (N.eq_dec c c_nl) as [->|Nc]; [left; reflexivity|]. right.
  destruct (N (line ++ [c]) r0) as [Z|Z]; [rewrite <- app_assoc; exact Q2| |exact Z]. exfalso. apply Z. exists line, c. auto.
Qed.
Print Assumptions C58_neat_partial.
Print Assumptions C58_no_breaks_partial.
Print Assumptions C58_wrap.

(** ** Examples *)
Ltac visible_edges := split; [do 2 eexists; split; [reflexivity|split; [reflexivity|discriminate]]|
  match goal with |- exists r c, ?s = r ++ [c] /\ _ => exists (removelast s), (last s 0%N); split; [reflexivity|split; [reflexivity|discriminate]] end].
Ltac unblank := let H := fresh "H" in intro H; unfold blank in H; rewrite Forall_forall in H;
  match type of H with forall x, In x ?l -> _ => specialize (H (hd 0%N l) (or_introl eq_refl)); discriminate H end.
Ltac full := unfold full_text; match goal with |- Forall _ (segments ?t) => let x := eval vm_compute in (segments t) in change (segments t) with x end;
  repeat apply Forall_cons; try apply Forall_nil; (split; [visible_edges|]);
  match goal with |- Forall _ (soft_lines ?t) => let x := eval vm_compute in (soft_lines t) in change (soft_lines t) with x end;
  repeat apply Forall_cons; try apply Forall_nil; unblank.
Ltac one := match goal with |- one_line ?t => apply one_lit; vm_compute; reflexivity end.
Ltac uses := let r := fresh "r" in let J := fresh "J" in intros r J; cbn [In] in J; repeat (destruct J as [J|J]; [try discriminate J; try injection J as <-|]); [..|destruct J].
Definition out58 := out40.
Definition opts58 := opts31 20.
Definition break58 : node := Node NLineBreak (mkPos 0 0 0 0) [].
Definition soft58 : node := Node NSoftBreak (mkPos 0 0 0 0) [].
(** A paragraph with a hard break and a line that is too long; a quote with a
    list; an item with code that has an empty line; a footnote. *)
Definition cs58 : list node :=
  [Node NParagraph (mkPos 1 1 1 1) [text40 1 (lit "one two three four  five"); break58; text40 2 (lit "six"); soft58; text40 3 (lit "seven")];
   at40 5 NBlockQuote [par40 5 (lit "eight"); at40 7 (NList Bullet true) [at40 7 NItem [par40 7 (lit "nine")]]];
   at40 9 (NList Bullet true) [at40 9 NItem [par40 9 (lit "ten"); at40 11 (NCodeBlock [] (lit "a" ++ [c_nl; c_nl] ++ lit "b" ++ [c_nl])) []]];
   at40 16 (NFootnoteDefinition (lit "n")) [par40 16 (lit "eleven twelve thirteen")]].
Definition src58 : list str := repeat [] 20.
Ltac para := apply nb_para; [let s := fresh "s" in let E := fresh "E" in intros s E a b Q; vm_compute in E; injection E as <-; destruct a; discriminate Q|];
  let x := fresh "x" in let evs := fresh "evs" in let E := fresh "E" in intros x evs E; vm_compute in E; injection E as <- <-;
  split; [full|split; [first [discriminate|intros _; one]|uses]].
Ltac quiet_child := let d := fresh "d" in let D := fresh "D" in intros d D; exfalso; revert D; apply no_directs; reflexivity.
Example C58_witness :
  Forall (neat_child uni_ascii [] (fun _ => None) opts58 (Wasm None) src58 true) cs58
  /\ exists s, serialize_root uni_ascii [] (fun _ => None) opts58 (Wasm None) src58 true true (Node NDocument (mkPos 1 1 1 1) cs58) = Ok s
  /\ output s = lit "one two three four" ++ [c_nl] ++ lit "five  " ++ [c_nl] ++ lit "six" ++ [c_nl] ++ lit "seven" ++ [c_nl; c_nl]
       ++ lit "> eight" ++ [c_nl] ++ lit ">" ++ [c_nl] ++ lit ">  -  nine" ++ [c_nl; c_nl]
       ++ lit " -  ten" ++ [c_nl; c_nl] ++ lit "    ~~~~" ++ [c_nl] ++ lit "    a" ++ [c_nl; c_nl] ++ lit "    b" ++ [c_nl] ++ lit "    ~~~~" ++ [c_nl; c_nl]
       ++ lit "[^n]: eleven twelve" ++ [c_nl] ++ lit "      thirteen" ++ [c_nl].
Proof.
  split; [|eexists; split; vm_compute; reflexivity].
  unfold cs58. repeat apply Forall_cons; try apply Forall_nil.
  - apply nc_block; [|quiet_child]. para.
  - apply nc_block; [|quiet_child]. apply nb_quote; [discriminate|]. repeat apply Forall_cons; try apply Forall_nil; [para|].
    apply nb_list; [discriminate|]. repeat apply Forall_cons; try apply Forall_nil. apply ni_item; [left; reflexivity|intros []| |intros _; constructor].
    repeat apply Forall_cons; try apply Forall_nil. para.
  - apply nc_block; [|quiet_child]. apply nb_list; [discriminate|]. repeat apply Forall_cons; try apply Forall_nil.
    apply ni_item; [left; reflexivity|intros []| |discriminate]. repeat apply Forall_cons; try apply Forall_nil; [para|]. apply nb_code.
    split; [apply one_lit; reflexivity|]. split; [exact dangles_nil|]. intros k content calls failed S.
    assert (content = lit "a" ++ [c_nl; c_nl] ++ lit "b" ++ [c_nl]) as -> by (inversion S; try reflexivity; discriminate).
    repeat constructor; intros (x & c & Q & W & _).
    + destruct x as [|? [|]]; try discriminate Q. injection Q as <-. discriminate W.
    + destruct x; discriminate Q.
    + destruct x as [|? [|]]; try discriminate Q. injection Q as <-. discriminate W.
  - apply nc_note. apply nn_words.
    + split; [intros c [<-|[]]; exact Logic.I|]. intros a b c x y Q. exfalso. apply (f_equal (@List.length node)) in Q. cbn [node_children] in Q.
      rewrite !app_length in Q. cbn [List.length] in Q. rewrite app_length in Q. cbn [List.length] in Q. lia.
    + one.
    + intros x evs E. vm_compute in E. injection E as <- <-. split; [|uses]. eexists. split; [left; reflexivity|]. split; [reflexivity|discriminate].
Qed.

(** ** Where it fails *)
Fixpoint spoilt (s : str) : bool :=
  match s with
  | c :: ((d :: _) as r) => is_ws c && negb (ceq c c_nl) && ceq d c_nl || spoilt r
  | _ => false
  end.
(** Some line ends in white space, though there is no hard line break in the
    document and no directive. *)
Inductive breakless : node -> Prop := bl_node : forall v p cs, v <> NLineBreak -> Forall breakless cs -> breakless (Node v p cs).
Definition trails_off (src : list str) (cs : list node) : Prop :=
  (forall n d, In n cs -> ~ directs n d) /\ Forall breakless cs
  /\ exists out line c rest, out58 src cs = Ok out /\ out = line ++ c :: c_nl :: rest /\ is_ws c = true /\ c <> c_nl.
Lemma spoilt_line : forall s, spoilt s = true -> exists line c rest, s = line ++ c :: c_nl :: rest /\ is_ws c = true /\ c <> c_nl.
Proof.
  induction s as [|c s IH]; [discriminate|]. cbn [spoilt]. destruct s as [|d s]; [discriminate|]. intro H. apply orb_true_iff in H. destruct H as [H|H].
  - rewrite !andb_true_iff in H. destruct H as [[W N] D]. apply ceq_true in D. subst d. exists [], c, s. split; [reflexivity|]. split; [exact W|].
    apply negb_true_iff, ceq_false in N. exact N.
  - destruct (IH H) as (line & e & rest & -> & W). exists (c :: line), e, rest. auto.
Qed.
Ltac off := split; [no_directive|split; [repeat constructor; discriminate|]];
  match goal with |- context [out58 ?s ?c] => let x := eval vm_compute in (out58 s c) in
    match x with Ok ?t => destruct (spoilt_line t eq_refl) as (line & ch & rest & E & W); exists t, line, ch, rest; split; [vm_compute; reflexivity|auto] end end.
(** An empty item. *)
Theorem C58_no_breaks_refuted : exists src cs, trails_off src cs.
Proof. exists [lit "- "], [at40 1 (NList Bullet true) [at40 1 NItem []]]. off. Qed.
(** An item that begins with a list, or with a quote, or with code. *)
Example C58_item_list : trails_off [lit "- - a"] [at40 1 (NList Bullet true) [at40 1 NItem [at40 1 (NList Bullet true) [at40 1 NItem [par40 1 (lit "a")]]]]].
Proof. off. Qed.
Example C58_item_quote : trails_off [lit "- > a"] [at40 1 (NList Bullet true) [at40 1 NItem [at40 1 NBlockQuote [par40 1 (lit "a")]]]].
Proof. off. Qed.
Example C58_item_code : trails_off [lit "- ~~~"] [at40 1 (NList Bullet true) [at40 1 NItem [at40 1 (NCodeBlock [] (lit "a" ++ [c_nl])) []]]].
Proof. off. Qed.
(** Details that begin with code. *)
Example C58_details_code : trails_off [lit "a"; []; lit ":   ~~~"]
  [at40 1 NDescriptionList [at40 1 NDescriptionItem [at40 1 NDescriptionTerm [par40 1 (lit "a")];
     at40 3 NDescriptionDetails [at40 3 (NCodeBlock [] (lit "b" ++ [c_nl])) []]]]].
Proof. off. Qed.
(** Code with an empty line, in an item in a quote. *)
Example C58_quoted_code : trails_off [lit "> - a"]
  [at40 1 NBlockQuote [at40 1 (NList Bullet true) [at40 1 NItem [par40 1 (lit "a"); at40 3 (NCodeBlock [] (lit "b" ++ [c_nl; c_nl] ++ lit "c" ++ [c_nl])) []]]]].
Proof. off. Qed.
(** A link to nowhere. *)
Example C58_empty_url : trails_off [lit "[a][b]"; []; lit "[b]: <>"]
  [Node NParagraph (mkPos 1 1 1 6) [Node (NLink [] []) (mkPos 1 1 1 6) [Node (NText (lit "a")) (mkPos 1 2 1 2) []]]].
Proof. off. Qed.
(** An empty footnote, and an empty heading. *)
Example C58_empty_note : trails_off [lit "a[^1]"; []; lit "[^1]:"] [par40 1 (lit "a"); at40 3 (NFootnoteDefinition (lit "1")) []].
Proof. off. Qed.
Example C58_empty_heading : trails_off [lit "###"] [at40 1 (NHeading 3) []].
Proof. off. Qed.
(** Inline HTML over two lines: the line break in it becomes a hard one. *)
Example C58_inline_html : trails_off [lit "a <b"; lit "c> d"]
  [Node NParagraph (mkPos 1 1 2 5) [text40 1 (lit "a "); Node (NHtmlInline (lit "<b" ++ [c_nl] ++ lit "c>")) (mkPos 1 3 2 2) []; text40 2 (lit " d")]].
Proof. off. Qed.
(** A link whose title is on two lines. *)
Example C58_title : trails_off [lit "[a](b ""c"; lit "d"")"]
  [Node NParagraph (mkPos 1 1 2 3) [Node (NLink (lit "b") (lit "c" ++ [c_nl] ++ lit "d")) (mkPos 1 1 2 3) [text40 1 (lit "a")]]].
Proof. off. Qed.
Print Assumptions C58_no_breaks_refuted.
