(** C44: a formatted document has the blocks it had before. *)
From Coq Require Import Bool Arith NArith Lia ZifyBool ZifyNat ZifyN String List Permutation.
From Verif Require Import Base BaseFacts WrapModel SpecWrap OptsModel CodeModel HeadingModel TableModel AstModel StateModel InlineModel WarnModel SerModel
  SpecCode SpecHeading SpecRefs SpecBlocks SpecEnd SpecDoc SpecStructure StateProof BlocksProof ParaProof NestProof PropsBlocks StructProof StructList StructDoc.
Import ListNotations.

(** The text has the blocks the children [cs] of a document stand for: it is
    readable, and however it is read, these blocks are found. *)
Definition keeps_structure U PN ENT o B src (cs : list node) (text : str) : Prop :=
  (exists bs, reads_document text bs) /\ forall bs, reads_document text bs -> same_document U PN ENT o B src cs bs.

(** The full claim is for all documents; see the refutations below for
    where it is false.  It is proved for documents built from paragraphs, headings, rules,
    fenced code, block quotes, alerts, lists, tables, HTML blocks and footnotes of
    paragraphs as [good_document] describes them. *)
Theorem C44_structure_partial : forall U PN ENT o B src ends_nl checks p cs s',
  four_columns o ->
  good_document U PN ENT o B src cs ->
  (forall q cs0 cs1, cs = Node NThematicBreak q cs0 :: cs1 -> rule_line o <> lit "---") ->
  serialize_root U PN ENT o B src ends_nl checks (Node NDocument p cs) = Ok s' ->
  hd_error (output s') <> Some 65279%N ->
  keeps_structure U PN ENT o B src cs (output s').
Proof.
  intros U PN ENT o B src ends_nl checks p cs s' Fc G R E M.
  destruct (structure_document _ _ _ _ _ _ _ _ Fc _ _ _ E G) as (ls & bs & O & Ch & Rd & Sm & _ & Hr & _).
  assert (L : cm_lines (output s') = ls) by (rewrite O; apply cm_lines_text_of; exact Ch).
  assert (D : reads_document (output s') bs).
  { split; [|rewrite L; exact Rd]. intros (l & r & Q & [->| ->]); rewrite L in Q; clear L; subst ls.
    - destruct (Hr eq_refl) as [(q & cs0 & cs1 & Ec) K]. exact (R _ _ _ Ec K).
    - apply M. rewrite O. reflexivity. }
  split; [exists bs; exact D|]. intros bs' [_ Rd']. rewrite L in Rd'. rewrite (reads_unique _ _ _ Rd' Rd). exact Sm.
Qed.
Print Assumptions C44_structure_partial.

(** The link definitions the reader finds are those that were written. *)
Theorem C44_definitions_partial : forall U PN ENT o B src ends_nl checks p cs s' bs,
  four_columns o ->
  good_document U PN ENT o B src cs ->
  serialize_root U PN ENT o B src ends_nl checks (Node NDocument p cs) = Ok s' ->
  reads_document (output s') bs ->
  link_definitions bs = map (fun r => (SpecRefs.spaced (ref_label r), ref_url r, ref_title r)) (defs (trace s')).
Proof.
  intros U PN ENT o B src ends_nl checks p cs s' bs Fc G E [_ Rd'].
  destruct (structure_document _ _ _ _ _ _ _ _ Fc _ _ _ E G) as (ls & bs0 & O & Ch & Rd & _ & Db & _).
  rewrite O, cm_lines_text_of in Rd' by exact Ch. rewrite (reads_unique _ _ _ Rd' Rd). clear - Db.
  revert Db. generalize (defs (trace s')). induction bs0 as [|b bs0 IH]; intros ds Db; [destruct ds; [reflexivity|discriminate Db]|].
  unfold def_blocks in *. cbn [filter] in Db. destruct (is_definition b) eqn:Q.
  - destruct ds as [|d ds]; [discriminate Db|]. cbn [map] in Db. injection Db as -> Db. cbn. f_equal. apply IH. exact Db.
  - destruct b; try discriminate Q; exact (IH ds Db).
Qed.
Print Assumptions C44_definitions_partial.

(** The same for [format_with_warnings]. *)
Theorem C44_format_partial : forall U PN ENT parse o B checks input p cs text ws,
  four_columns o -> parse input = Node NDocument p cs ->
  good_document U PN ENT o B (lines input) cs ->
  (forall q cs0 cs1, cs = Node NThematicBreak q cs0 :: cs1 -> rule_line o <> lit "---") ->
  input <> [] -> format_with_warnings U PN ENT parse o B checks input = Ok (text, ws) ->
  hd_error text <> Some 65279%N ->
  keeps_structure U PN ENT o B (lines input) cs text.
Proof.
  intros U PN ENT parse o B checks input p cs text ws Fc Ep G R N E M. unfold format_with_warnings in E. rewrite Ep in E.
  destruct input as [|c input]; [congruence|]. cbn [is_nil] in E.
  destruct (serialize_root _ _ _ _ _ _ _ _ _) as [s'|] eqn:Es; [|discriminate]. cbn [rbind] in E. injection E as <- _.
  eapply C44_structure_partial; eassumption.
Qed.
Print Assumptions C44_format_partial.

(** The same for documents with front matter: it stays where it is, and after
    it come the blocks of the document.  It is not proved where the front matter
    is followed by a heading of level 2 or 3 and the document has footnotes; see
    [C44_front_matter_note_refuted]. *)
Definition front_content (content : str) (front : list str) : Prop :=
  cm_lines (trim content) = lit "---" :: front ++ [lit "---"] /\ ~ In (lit "---") front.
Lemma cm_lines_end : forall t z rest, is_ws z = false -> cm_lines ((t ++ [z]) ++ c_nl :: rest) = cm_lines (t ++ [z]) ++ cm_lines rest.
Proof.
  intros t z rest Z. assert (Zn : ceq z c_nl = false /\ ceq z c_cr = false) by (split; apply ceq_false; intros ->; discriminate Z). destruct Zn as [Z1 Z2].
  unfold cm_lines. generalize (@nil char) at 1 3. assert (G : forall n t cur, List.length t <= n -> cm_lines_aux cur ((t ++ [z]) ++ c_nl :: rest) = cm_lines_aux cur (t ++ [z]) ++ cm_lines_aux [] rest).
  { clear t. induction n as [|n IH]; intros t cur L; (destruct t as [|x t]; [cbn [app cm_lines_aux]; rewrite Z1, Z2; reflexivity|]); [cbn [List.length] in L; lia|]. cbn [List.length] in L.
    cbn [app cm_lines_aux]. destruct (ceq x c_nl); [cbn [app]; f_equal; apply IH; lia|]. destruct (ceq x c_cr); [|apply IH; lia].
    destruct t as [|y t].
    - cbn [app]. rewrite Z1. cbn [app cm_lines_aux]. rewrite Z1, Z2. reflexivity.
    - cbn [app]. destruct (ceq y c_nl).
      + cbn [app]. f_equal. apply IH. cbn [List.length] in L. lia.
      + cbn [app]. f_equal. apply (IH (y :: t)). lia. }
  intro cur. apply (G (List.length t)). apply le_n.
Qed.
Theorem C44_front_matter_partial : forall U PN ENT o B src ends_nl checks p q ics content front cs s',
  four_columns o ->
  front_content content front ->
  good_document U PN ENT o B src cs ->
  (forall level q' ics' cs', cs = Node (NHeading level) q' ics' :: cs' -> level <> 2 /\ level <> 3) \/ Forall (fun n => is_note n = false) cs ->
  serialize_root U PN ENT o B src ends_nl checks (Node NDocument p (Node (NFrontMatter content) q ics :: cs)) = Ok s' ->
  (exists bs, reads_fronted (output s') front bs)
  /\ forall front' bs, reads_fronted (output s') front' bs -> front' = front /\ same_document U PN ENT o B src cs bs.
Proof.
  intros U PN ENT o B src ends_nl checks p q ics content front cs s' Fc [Ec Nc] G Hs E.
  destruct (structure_fronted U PN ENT o B src ends_nl checks Fc p q ics content cs s' E G) as (ls & bs & O & Ch & Rd & Sm & _).
  { destruct Hs as [Hs|Hs].
    - left. destruct cs as [|[v q' ics'] cs']; [exact Logic.I|]. unfold section_start, heading_level. cbn [node_value]. destruct v; try reflexivity.
      destruct (Hs _ _ _ _ eq_refl) as [H2 H3]. destruct level as [|[|[|[|?]]]]; try reflexivity; congruence.
    - right. clear - Hs. unfold note_part. induction Hs as [|n cs H Hs IH]; [reflexivity|]. cbn [filter]. rewrite H. exact IH. }
  assert (L : cm_lines (output s') = lit "---" :: front ++ lit "---" :: [] :: ls).
  { destruct (trim_end_last (trim_start content)) as [Q|(a & z & Q & Z)]; [unfold trim in Ec; rewrite Q in Ec; discriminate Ec|]. change (trim_end (trim_start content)) with (trim content) in Q.
    rewrite O, Q. change ((a ++ [z]) ++ [c_nl; c_nl] ++ text_of ls) with ((a ++ [z]) ++ c_nl :: text_of ([] :: ls)). rewrite cm_lines_end by exact Z. rewrite <- Q, Ec.
    rewrite cm_lines_text_of by (constructor; [constructor|exact Ch]). cbn [app]. rewrite <- app_assoc. reflexivity. }
  assert (D : reads_fronted (output s') front bs).
  { exists ([] :: ls). split; [exact L|]. split; [exact Nc|]. apply (reads_blanks [[]]); [repeat constructor|exact Rd]. }
  split; [exists bs; exact D|]. intros front' bs' (rest & L' & N' & Rd'). rewrite L in L'. injection L' as L'.
  assert (Q : forall a b x y, ~ In (lit "---") a -> ~ In (lit "---") b -> a ++ lit "---" :: x = b ++ lit "---" :: y -> a = b /\ x = y).
  { clear. induction a as [|u a IH]; intros b x y Na Nb Q; destruct b as [|v b]; cbn [app] in Q.
    - injection Q as Q. auto.
    - injection Q as <- _. exfalso. apply Nb. left. reflexivity.
    - injection Q as -> _. exfalso. apply Na. left. reflexivity.
    - injection Q as <- Q. destruct (IH b x y) as [-> ->]; [intro I; apply Na; right; exact I|intro I; apply Nb; right; exact I|exact Q|]. auto. }
  destruct (Q _ _ _ _ Nc N' L') as [<- <-]. split; [reflexivity|].
  destruct D as (rest & L2 & _ & Rd2). rewrite L in L2. injection L2 as L2. destruct (Q _ _ _ _ Nc Nc L2) as [_ <-]. rewrite (reads_unique _ _ _ Rd' Rd2). exact Sm.
Qed.
Print Assumptions C44_front_matter_partial.

(** A document without footnotes and link definitions has just the blocks of its
    children. *)
Theorem C44_no_notes : forall U PN ENT o B src cs bs, Forall (fun n => is_note n = false) cs -> link_definitions bs = [] ->
  (same_document U PN ENT o B src cs bs <-> Forall2 (same U PN ENT o B src 0) cs bs).
Proof.
  intros U PN ENT o B src cs bs F D.
  assert (M : main_part cs = cs /\ note_part cs = []).
  { clear D. induction F as [|n cs H F [I1 I2]]; [split; reflexivity|]. unfold main_part, note_part in *. cbn [filter]. rewrite H. cbn [negb]. rewrite I1, I2. split; reflexivity. }
  destruct M as [M1 M2]. unfold same_document. rewrite M1, M2. split.
  - intros [S (ns & Pm & Sn)]. apply Permutation_nil in Pm. subst ns. assert (Q : filter is_foot bs = []) by (inversion Sn; reflexivity).
    assert (Fb : filter is_main bs = bs).
    { clear - Q D. induction bs as [|b bs IH]; [reflexivity|]. cbn [filter] in *. destruct (is_foot b) eqn:Eb; [discriminate Q|].
      destruct b; try discriminate D; try discriminate Eb; (change (is_main _) with true at 1; cbn [link_definitions flat_map app] in D; cbv beta iota; f_equal; apply IH; [exact D|exact Q]). }
    rewrite Fb in S. exact S.
  - intro S. destruct (main_only _ _ _ _ _ _ _ _ _ S) as (Q1 & Q2 & _). unfold main_blocks, foot_blocks in *. rewrite Q1. split; [exact S|]. exists []. split; [constructor|]. rewrite Q2. constructor.
Qed.
Lemma plain_document : forall U PN ENT o B src cs, Forall (fun n => is_note n = false /\ is_html_block n = false) cs ->
  Forall (good U PN ENT o B src (At 0 0 0)) cs -> apart cs -> good_document U PN ENT o B src cs.
Proof.
  intros U PN ENT o B src cs F G A.
  assert (M : main_part cs = cs /\ note_part cs = []).
  { clear G A. induction F as [|n cs [H _] F [I1 I2]]; [split; reflexivity|]. unfold main_part, note_part in *. cbn [filter]. rewrite H. cbn [negb]. rewrite I1, I2. split; reflexivity. }
  destruct M as [M1 M2]. constructor.
  - eapply Forall_impl; [|exact G]. intros n H. left. exact H.
  - rewrite M1. exact A.
  - rewrite M2. constructor.
  - intros a n b l -> _ H _. apply Forall_app in F. destruct F as [_ F]. apply Forall_inv in F. destruct F as [_ F]. unfold is_html_block in F. unfold html_literal in H. rewrite H in F. discriminate F.
Qed.

(** ** Examples *)
Definition out44 (o : Options) (src : list str) (cs : list node) : res str :=
  rbind (serialize_root uni_ascii [] (fun _ => None) o (Wasm None) src true true (Node NDocument (mkPos 1 1 1 1) cs)) (fun s => Ok (output s)).
Definition at44 (l : nat) (v : value) (cs : list node) : node := Node v (mkPos l 1 l 1) cs.
Definition text44 (t : str) : node := Node (NText t) (mkPos 0 0 0 0) [].
Definition par44 (l : nat) (t : str) : node := at44 l NParagraph [text44 t].
Definition cs44 : list node :=
  [at44 1 (NHeading 1) [text44 (lit "Title")];
   at44 4 NParagraph [text44 (lit "See "); Node (NLink (lit "https://x.y/") (lit "T")) (mkPos 0 0 0 0) [text44 (lit "a link")]; text44 (lit " and more.")];
   at44 6 (NAlert Note) [par44 7 (lit "careful"); at44 9 (NList Bullet true) [at44 9 NItem [par44 9 (lit "now")]]];
   at44 11 (NList Ordered false)
     [at44 11 NItem [par44 11 (lit "one"); at44 12 (NList Bullet true) [at44 12 (NTaskItem (Some 120%N)) [par44 12 (lit "done")]; at44 13 NItem []];
                     at44 15 (NCodeBlock (lit "rust") (lit "let x;" ++ [c_nl])) []];
      at44 19 NItem [par44 19 (lit "two"); at44 20 NBlockQuote [par44 20 (lit "said")]]];
   at44 22 (NHeading 2) [text44 (lit "Part")];
   at44 24 NThematicBreak []].
Definition src44 : list str := repeat (lit "-") 24.
Definition text_44 : str := text_of
  [lit "Title"; lit "====="; []; lit "See [a link] and more."; []; lit "> [!NOTE]"; lit "> careful"; lit ">"; lit ">  -  now"; [];
   lit "1.  one"; lit "     -  [x] done"; lit "     -  "; []; []; lit "    ~~~~ rust"; lit "    let x;"; lit "    ~~~~"; []; lit "2.  two"; []; lit "    > said"; [];
   lit "[a link]: https://x.y/ ""T"""; []; []; lit "Part"; lit "----"; []; spaces 3 ++ default_thematic_break_style].
Lemma unabbreviated_ok : forall src p, match extract_source src p with Ok (Some s) => contains_sub (lit "*[") s = false | _ => True end ->
  unabbreviated src p.
Proof.
  intros src p H s E a b Q. rewrite E in H. assert (contains_sub (lit "*[") s = true) by (apply contains_true; exists a, b; exact Q). congruence.
Qed.
Ltac no_uses := let r := fresh in let I := fresh in intros r I; vm_compute in I; repeat (destruct I as [I|I]; [discriminate I|]); destruct I.
Ltac para44 := eapply gd_para; [apply unabbreviated_ok; vm_compute; exact Logic.I || reflexivity|vm_compute; reflexivity|try solve [no_uses]|apply safe_textb_ok; vm_compute; reflexivity|
  first [intros K; exfalso; apply K; reflexivity|intros _ K; discriminate K|intros _ _; vm_compute; reflexivity]].
Ltac apart44 := repeat split; first
  [let K1 := fresh in let K2 := fresh in intros ? ? ? ? K1 K2; first [discriminate K1|discriminate K2|injection K1 as <- <-; injection K2 as <- <-; discriminate]
  |let K1 := fresh in let K2 := fresh in intros K1 K2; first [discriminate K1|discriminate K2]].
Ltac head44 := eapply gd_head; [vm_compute; reflexivity|no_uses|
  intros t (x & evs & E & ->); vm_compute in E; injection E as <- <-; cbn [heading_sentence_case default_options]].
Ltac absurd_in := let K := fresh in intro K; vm_compute in K; repeat (destruct K as [K|K]; [discriminate K|]); destruct K.
Ltac unboxed44 := let E := fresh in intros ? (? & ? & E & ->); vm_compute in E; injection E as <- _;
  split; [let K := fresh in intros ? K; vm_compute in K; discriminate K|absurd_in].
Ltac joined44 := repeat split; intros V _ k t p i is Q; first [discriminate V|discriminate Q|injection Q as <- <- <- <- <-; discriminate].
Lemma settles_wasm : forall o k info literal content calls failed, settles o (Wasm None) k info literal content calls failed -> content = literal.
Proof. intros o k info literal content calls failed H. inversion H; subst; reflexivity || discriminate. Qed.
Example C44_good : good_document uni_ascii [] (fun _ => None) default_options (Wasm None) src44 cs44.
Proof.
  apply plain_document; [repeat constructor| |apart44]. unfold cs44, par44, at44. repeat apply Forall_cons; try apply Forall_nil.
  - head44. split; [repeat constructor; discriminate|]. split; [lia|]. split.
    + intros _. repeat split; try (vm_compute; reflexivity); [vm_compute; lia|]. eexists. eexists. split; reflexivity.
    + intro K. exfalso. apply K. left. split; reflexivity.
  - para44. intros r I. vm_compute in I. destruct I as [I|[]]. injection I as <-. constructor.
    + repeat (apply g_char; [discriminate|reflexivity|]). apply g_nil.
    + exists 97%N. split; [left; reflexivity|split; [discriminate|reflexivity]].
    + discriminate.
    + split; repeat constructor; discriminate.
    + split; [discriminate|]. split; [discriminate|]. repeat constructor; discriminate.
    + repeat (apply g_char; [discriminate|reflexivity|]). apply g_nil.
  - apply gd_alert; [auto|apart44|]. repeat apply Forall_cons; try apply Forall_nil; [para44|].
    apply gd_list; [lia|discriminate|discriminate|reflexivity|]. apply Forall_cons; [|apply Forall_nil].
    eapply gd_item; [left; split; [reflexivity|unboxed44]|left; reflexivity|exact Logic.I|joined44|para44|constructor].
  - apply gd_list; [lia|discriminate|cbn; lia|discriminate|]. repeat apply Forall_cons; try apply Forall_nil.
    + eapply gd_item; [left; split; [reflexivity|unboxed44]|discriminate|apart44|joined44|para44|]. repeat apply Forall_cons; try apply Forall_nil.
      * apply gd_list; [lia|discriminate|discriminate|discriminate|]. repeat apply Forall_cons; try apply Forall_nil; [|apply gd_empty].
        eapply gd_item; [right; eexists; reflexivity|discriminate|exact Logic.I|joined44|para44|constructor].
      * apply gd_code; [auto|]. split; [cbn; lia|]. split.
        { split; [repeat constructor; discriminate|]. split; [reflexivity|]. split; discriminate. }
        intros k content calls failed S. apply settles_wasm in S. subst content. split; [|intros _; repeat constructor].
        repeat split; intro K; discriminate K.
    + eapply gd_item; [left; split; [reflexivity|unboxed44]|discriminate|apart44|joined44|para44|]. repeat apply Forall_cons; try apply Forall_nil.
      apply gd_quote; [auto|discriminate|apart44|]. apply Forall_cons; [para44|apply Forall_nil].
  - head44. split; [repeat constructor; discriminate|]. split; [lia|]. split.
    + intros _. repeat split; try (vm_compute; reflexivity); [vm_compute; lia|]. eexists. eexists. split; reflexivity.
    + intro K. exfalso. apply K. right. split; reflexivity.
  - apply gd_rule; [auto|]. split; [repeat constructor; discriminate|]. split; [cbn; lia|]. split; [vm_compute; reflexivity|]. eexists. eexists. split; reflexivity.
Qed.
(** A note with a list, a nested task list, code and a quote inside items, and
    a link definition before the next section. *)
Lemma out44_run : forall o src cs text, out44 o src cs = Ok text -> exists s',
  serialize_root uni_ascii [] (fun _ => None) o (Wasm None) src true true (Node NDocument (mkPos 1 1 1 1) cs) = Ok s' /\ output s' = text.
Proof.
  intros o src cs text E. unfold out44 in E. destruct (serialize_root _ _ _ _ _ _ _ _ _) as [s'|]; [|discriminate].
  exists s'. split; [reflexivity|]. injection E as E. exact E.
Qed.
Lemma out44_keeps : forall o src cs text, out44 o src cs = Ok text -> four_columns o ->
  good_document uni_ascii [] (fun _ => None) o (Wasm None) src cs ->
  (forall q cs0 cs1, cs = Node NThematicBreak q cs0 :: cs1 -> rule_line o <> lit "---") -> hd_error text <> Some 65279%N ->
  keeps_structure uni_ascii [] (fun _ => None) o (Wasm None) src cs text.
Proof.
  intros o src cs text E Fc G R M. destruct (out44_run _ _ _ _ E) as (s' & Es & <-). eapply C44_structure_partial; eassumption.
Qed.
Example C44_output : out44 default_options src44 cs44 = Ok text_44.
Proof. vm_compute. reflexivity. Qed.
Example C44_example : keeps_structure uni_ascii [] (fun _ => None) default_options (Wasm None) src44 cs44 text_44.
Proof.
  apply out44_keeps; [exact C44_output|constructor; cbn; lia|exact C44_good|intros q cs0 cs1 Q; discriminate Q|].
  intro Q. vm_compute in Q. discriminate Q.
Qed.

(** Tables, one in a quote, HTML blocks in the middle and at the end, and a
    footnote, which is written before the next section. *)
Definition cell44 (t : str) : node := at44 3 NTableCell [text44 t].
Definition note44 (l : nat) (name : str) (cs : list node) : node := at44 l (NFootnoteDefinition name) [at44 l NParagraph cs].
Definition rich44 : list node :=
  [at44 1 NParagraph [text44 (lit "Intro"); Node (NFootnoteReference (lit "n")) (mkPos 1 6 1 9) []; text44 (lit " text.")];
   at44 3 (NTable [ANone; ACenter])
     [at44 3 NTableRow [cell44 (lit "Name"); cell44 (lit "Use")]; at44 5 NTableRow [cell44 (lit "a"); cell44 (lit "b|c")]];
   at44 7 NBlockQuote [at44 7 (NTable [ANone]) [at44 7 NTableRow [cell44 (lit "x")]; at44 9 NTableRow [cell44 (lit "y")]]];
   at44 11 (NHtmlBlock (text_of [lit "<!-- kept -->"])) [];
   at44 16 (NHeading 2) [text44 (lit "Part")];
   at44 19 (NHtmlBlock (text_of [lit "<div>"; lit "end"; lit "</div>"])) [];
   par44 23 (lit "Done.");
   at44 25 (NHtmlBlock (text_of [lit "<!-- one -->"])) [];
   at44 27 (NHtmlBlock (text_of [lit "<div>two</div>"])) [];
   note44 13 (lit "n") [text44 (lit "The note"); Node NSoftBreak (mkPos 0 0 0 0) []; text44 (lit "continues.")]].
Definition rich_text44 : str := text_of
  [lit "Intro[^n] text."; []; lit "| Name | Use  |"; lit "| ---- | :--: |"; lit "| a    | b\|c |"; [];
   lit "> | x   |"; lit "> | --- |"; lit "> | y   |"; []; lit "<!-- kept -->"; []; lit "[^n]: The note continues."; []; [];
   lit "Part"; lit "----"; []; lit "<div>"; lit "end"; lit "</div>"; []; lit "Done."; []; lit "<!-- one -->"; lit "<div>two</div>"].
Example C44_rich_output : out44 default_options src44 rich44 = Ok rich_text44.
Proof. vm_compute. reflexivity. Qed.
Ltac cell44_ok := unfold cell44, at44; eexists; eexists; split; [vm_compute; reflexivity|split; [no_uses|split; [repeat constructor; discriminate|vm_compute; reflexivity]]].
Ltac rows44 := repeat (apply Forall_cons; [split; [reflexivity|repeat (apply Forall_cons; [cell44_ok|]); apply Forall_nil]|]); apply Forall_nil.
Ltac undirected44 := let K := fresh in intros ? K; apply DocProof.directs_iff in K; vm_compute in K; discriminate K.
Ltac tags44 := split; [vm_compute; reflexivity|]; eexists; eexists; eexists; split; [vm_compute; reflexivity|]; split; [vm_compute; reflexivity|]; split; [vm_compute; reflexivity|];
  repeat (apply Forall_cons; [reflexivity|]); apply Forall_nil.
Ltac comment44 := split; [vm_compute; reflexivity|]; eexists; eexists; eexists; split; [vm_compute; reflexivity|]; split; [vm_compute; reflexivity|]; split; [vm_compute; reflexivity|];
  exists []; eexists; split; [reflexivity|]; split; [apply Forall_nil|vm_compute; reflexivity].
Example C44_rich_good : good_document uni_ascii [] (fun _ => None) default_options (Wasm None) src44 rich44.
Proof.
  constructor.
  - unfold rich44, par44, note44, at44. repeat apply Forall_cons; try apply Forall_nil.
    1-9: left. 10: right.
    + para44.
    + apply gd_table; [lia|discriminate|discriminate|rows44].
    + apply gd_quote; [auto|discriminate|apart44|]. apply Forall_cons; [|apply Forall_nil]. apply gd_table; [lia|discriminate|discriminate|rows44].
    + apply gd_html; [comment44|undirected44].
    + head44. split; [repeat constructor; discriminate|]. split; [lia|]. split.
      * intros _. repeat split; try (vm_compute; reflexivity); [vm_compute; lia|]. eexists. eexists. split; reflexivity.
      * intro K. exfalso. apply K. right. split; reflexivity.
    + apply gd_html; [tags44|undirected44].
    + para44.
    + apply gd_html; [comment44|undirected44].
    + apply gd_html; [tags44|undirected44].
    + eapply gd_note; [discriminate|repeat constructor; discriminate|repeat constructor; discriminate|vm_compute; reflexivity|no_uses|apply safe_textb_ok; vm_compute; reflexivity|absurd_in].
  - change (main_part rich44) with (removelast rich44). apart44.
  - repeat constructor; intros [].
  - intros a n b l E T H M. unfold rich44 in E.
    let rec go := destruct a as [|? a]; [first [discriminate E|injection E as <- <-]; first [solve [discriminate H]|solve [injection H as <-; vm_compute; reflexivity]|exfalso]
      |first [discriminate E|injection E as _ E; go]] in go.
    + destruct T as (_ & _ & T). apply Forall_inv in T. apply DocProof.may_trail_iff in T. discriminate T.
    + destruct M as (m & l' & I & M). destruct I as [<-|[]]. discriminate M.
Qed.
Example C44_rich_example : keeps_structure uni_ascii [] (fun _ => None) default_options (Wasm None) src44 rich44 rich_text44.
Proof.
  apply out44_keeps; [exact C44_rich_output|constructor; cbn; lia|exact C44_rich_good|intros q cs0 cs1 Q; discriminate Q|].
  intro Q. vm_compute in Q. discriminate Q.
Qed.

Definition para (t : str) : block := Para [[t]].
(** A footnote of two paragraphs, the second with a hard line break, code, a
    quote and a list with two items. *)
Definition notes44 : list node :=
  [at44 1 NParagraph [text44 (lit "Look"); Node (NFootnoteReference (lit "1")) (mkPos 1 5 1 8) []];
   at44 3 (NFootnoteDefinition (lit "1"))
     [par44 3 (lit "First."); at44 5 NParagraph [text44 (lit "Second"); Node NLineBreak (mkPos 0 0 0 0) []; text44 (lit "and more.")];
      at44 8 (NCodeBlock (lit "rust") (lit "fn f() {" ++ [c_nl] ++ lit "    x" ++ [c_nl] ++ lit "}" ++ [c_nl])) [];
      at44 14 NBlockQuote [par44 14 (lit "said")];
      at44 16 (NList Bullet true) [at44 16 NItem [par44 16 (lit "one"); at44 18 NBlockQuote [par44 18 (lit "in one")]]; at44 20 (NTaskItem None) [par44 20 (lit "two")]]]].
Definition notes_text44 : str := text_of [lit "Look[^1]"; []; lit "[^1]: First."; []; lit "      Second  "; lit "      and more."; [];
  lit "      ~~~~ rust"; lit "      fn f() {"; lit "          x"; lit "      }"; lit "      ~~~~"; []; lit "      > said"; [];
  lit "       -  one"; []; lit "          > in one"; lit "       -  [ ] two"].
Example C44_notes_output : out44 default_options src44 notes44 = Ok notes_text44.
Proof. vm_compute. reflexivity. Qed.
Example C44_notes_good : good_document uni_ascii [] (fun _ => None) default_options (Wasm None) src44 notes44.
Proof.
  constructor.
  - unfold notes44, par44, at44. apply Forall_cons; [left; para44|]. apply Forall_cons; [|apply Forall_nil]. right.
    apply gd_notes; [discriminate|repeat constructor; discriminate|repeat constructor; discriminate|para44|apart44| |].
    + repeat apply Forall_cons; try apply Forall_nil.
      * split; [para44|]. split; [vm_compute; lia|]. split; exact Logic.I.
      * split; [|split; [vm_compute; lia|split; [intros k content calls failed S; apply settles_wasm in S; subst content; repeat constructor|exact Logic.I]]].
        apply gd_code; [auto|]. split; [cbn; lia|]. split; [split; [repeat constructor; discriminate|split; [reflexivity|split; discriminate]]|].
        intros k content calls failed S. apply settles_wasm in S. subst content. split; [repeat split; intro K; discriminate K|intros _; repeat constructor].
      * split; [|split; [vm_compute; lia|split; [repeat split|exact Logic.I]]].
        apply gd_quote; [auto|discriminate|apart44|]. apply Forall_cons; [para44|apply Forall_nil].
      * split; [|split; [vm_compute; lia|split; [repeat split|exact Logic.I]]].
        apply gd_list; [lia|discriminate|discriminate|reflexivity|]. repeat apply Forall_cons; try apply Forall_nil.
        -- eapply gd_item; [left; split; [reflexivity|unboxed44]|discriminate|apart44|joined44|para44|]. apply Forall_cons; [|apply Forall_nil].
           apply gd_quote; [auto|discriminate|apart44|]. apply Forall_cons; [para44|apply Forall_nil].
        -- eapply gd_item; [right; eexists; reflexivity|discriminate|exact Logic.I|joined44|para44|constructor].
    + apply Exists_cons_hd. discriminate.
  - change (main_part notes44) with [hd (text44 []) notes44]. apart44.
  - repeat constructor; intros [].
  - intros a n b l E T H M. unfold notes44 in E. destruct a as [|? a]; [injection E as <- <-; discriminate H|]. injection E as _ E.
    destruct a as [|? a]; [injection E as <- <-; discriminate H|]. destruct a; discriminate E.
Qed.
Example C44_notes_example : keeps_structure uni_ascii [] (fun _ => None) default_options (Wasm None) src44 notes44 notes_text44
  /\ reads_document notes_text44
      [para (lit "Look[^1]"); Foot (lit "1") [para (lit "First."); Para [[lit "Second"]; [lit "and"; lit "more."]];
         SpecBlocks.Code (lit "rust") [lit "fn f() {"; lit "    x"; lit "}"]; Quote [para (lit "said")];
         SpecBlocks.List (BulletOf c_dash) [(None, [para (lit "one"); Quote [Para [[lit "in"; lit "one"]]]]); (Some false, [para (lit "two")])]]].
Proof.
  split.
  - apply out44_keeps; [exact C44_notes_output|constructor; cbn; lia|exact C44_notes_good|intros q cs0 cs1 Q; discriminate Q|].
    intro Q. vm_compute in Q. discriminate Q.
  - split; [intros (? & ? & Q & [->| ->]); vm_compute in Q; discriminate Q|exists 20; vm_compute; reflexivity].
Qed.

(** Two terms; the details of the first are two paragraphs, code and a quote. *)
Definition term44 (l : nat) (t : str) (cs : list node) : node :=
  at44 l NDescriptionItem [at44 l NDescriptionTerm [par44 l t]; at44 (S l) NDescriptionDetails cs].
Definition described44 : list node :=
  [par44 1 (lit "Terms.");
   at44 3 NDescriptionList
     [term44 3 (lit "One") [par44 4 (lit "First."); par44 6 (lit "Second."); at44 8 (NCodeBlock (lit "rust") (lit "let x;" ++ [c_nl])) [];
                            at44 12 NBlockQuote [par44 12 (lit "said")]];
      term44 14 (lit "Two") [par44 15 (lit "Last.")]];
   par44 17 (lit "Done.")].
Definition described_text44 : str := text_of
  [lit "Terms."; []; lit "One"; lit ":   First."; []; lit "    Second."; []; lit "    ~~~~ rust"; lit "    let x;"; lit "    ~~~~"; []; lit "    > said"; [];
   lit "Two"; lit ":   Last."; []; lit "Done."].
Example C44_described_output : out44 default_options src44 described44 = Ok described_text44.
Proof. vm_compute. reflexivity. Qed.
Example C44_described_good : good_document uni_ascii [] (fun _ => None) default_options (Wasm None) src44 described44.
Proof.
  apply plain_document; [repeat constructor| |apart44]. unfold described44, par44, at44. repeat apply Forall_cons; try apply Forall_nil; [para44| |para44].
  apply gd_describe; [discriminate|]. repeat apply Forall_cons; try apply Forall_nil; apply gd_entry; try para44; try apply Forall_nil; try reflexivity.
  - intro K. destruct K. reflexivity.
  - repeat apply Forall_cons; try apply Forall_nil; try exact Logic.I.
    intros k content calls failed S. apply settles_wasm in S. subst content. split; [|right; eexists; reflexivity].
    intros a b Q. assert (K : contains_sub (repc c_tilde 5) (lit "let x;" ++ [c_nl]) = true) by (apply contains_true; exists a, b; exact Q). discriminate K.
  - repeat apply Forall_cons; try apply Forall_nil.
    + para44.
    + apply gd_code; [auto|]. split; [cbn; lia|]. split.
      { split; [repeat constructor; discriminate|]. split; [reflexivity|]. split; discriminate. }
      intros k content calls failed S. apply settles_wasm in S. subst content. split; [|intros _; repeat constructor].
      repeat split; intro K; discriminate K.
    + apply gd_quote; [auto|discriminate|apart44|]. apply Forall_cons; [para44|apply Forall_nil].
Qed.
Example C44_described_example : keeps_structure uni_ascii [] (fun _ => None) default_options (Wasm None) src44 described44 described_text44
  /\ reads_document described_text44
      [para (lit "Terms.");
       Describe [([[lit "One"]], [para (lit "First."); para (lit "Second."); Code (lit "rust") [lit "let x;"]; Quote [para (lit "said")]]);
                 ([[lit "Two"]], [para (lit "Last.")])];
       para (lit "Done.")].
Proof.
  split.
  - apply out44_keeps; [exact C44_described_output|constructor; cbn; lia|exact C44_described_good|intros q cs0 cs1 Q; discriminate Q|].
    intro Q. vm_compute in Q. discriminate Q.
  - split; [intros (? & ? & Q & [->| ->]); vm_compute in Q; discriminate Q|exists 30; vm_compute; reflexivity].
Qed.
(** Two terms in a quote in a quote. *)
Definition quoted_terms44 : list node :=
  [par44 1 (lit "Said.");
   at44 3 NBlockQuote [at44 3 NBlockQuote
     [at44 3 NDescriptionList [term44 3 (lit "One") [par44 4 (lit "First.")]; term44 6 (lit "Two") [par44 7 (lit "Last.")]]; par44 9 (lit "end")]]].
Definition quoted_terms_text44 : str := text_of
  [lit "Said."; []; lit "> > One"; lit "> > :   First."; lit "> >"; lit "> > Two"; lit "> > :   Last."; lit "> >"; lit "> > end"].
Example C44_quoted_terms_output : out44 default_options src44 quoted_terms44 = Ok quoted_terms_text44.
Proof. vm_compute. reflexivity. Qed.
Example C44_quoted_terms_good : good_document uni_ascii [] (fun _ => None) default_options (Wasm None) src44 quoted_terms44.
Proof.
  apply plain_document; [repeat constructor| |apart44]. unfold quoted_terms44, par44, at44. repeat apply Forall_cons; try apply Forall_nil; [para44|].
  apply gd_quote; [auto|discriminate|apart44|]. apply Forall_cons; [|apply Forall_nil].
  apply gd_quote; [auto|discriminate|apart44|]. repeat apply Forall_cons; try apply Forall_nil; [|para44].
  apply gd_describe; [discriminate|]. repeat apply Forall_cons; try apply Forall_nil; apply gd_entry; try para44; try apply Forall_nil; reflexivity.
Qed.
Example C44_quoted_terms_example : keeps_structure uni_ascii [] (fun _ => None) default_options (Wasm None) src44 quoted_terms44 quoted_terms_text44
  /\ reads_document quoted_terms_text44
      [para (lit "Said.");
       Quote [Quote [Describe [([[lit "One"]], [para (lit "First.")]); ([[lit "Two"]], [para (lit "Last.")])]; para (lit "end")]]].
Proof.
  split.
  - apply out44_keeps; [exact C44_quoted_terms_output|constructor; cbn; lia|exact C44_quoted_terms_good|intros q cs0 cs1 Q; discriminate Q|].
    intro Q. vm_compute in Q. discriminate Q.
  - split; [intros (? & ? & Q & [->| ->]); vm_compute in Q; discriminate Q|exists 30; vm_compute; reflexivity].
Qed.
(** Front matter before the same document. *)
Definition front44 : node := at44 1 (NFrontMatter (text_of [lit "---"; lit "title: x"; []; lit "..."; lit "---"; []])) [].
Example C44_front_output : out44 default_options src44 (front44 :: notes44) = Ok (text_of [lit "---"; lit "title: x"; []; lit "..."; lit "---"; []] ++ notes_text44).
Proof. vm_compute. reflexivity. Qed.
Example C44_front_example : forall front bs, reads_fronted (text_of [lit "---"; lit "title: x"; []; lit "..."; lit "---"; []] ++ notes_text44) front bs ->
  front = [lit "title: x"; []; lit "..."] /\ same_document uni_ascii [] (fun _ => None) default_options (Wasm None) src44 notes44 bs.
Proof.
  destruct (out44_run _ _ _ _ C44_front_output) as (s' & Es & <-).
  refine (proj2 (C44_front_matter_partial uni_ascii [] (fun _ => None) default_options (Wasm None) src44 true true _ _ _ _ [lit "title: x"; []; lit "..."] notes44 s' _ _ C44_notes_good _ Es)).
  - constructor; cbn; lia.
  - split; [vm_compute; reflexivity|]. intros [K|[K|[K|[]]]]; discriminate K.
  - left. intros level q' ics' cs' Q. discriminate Q.
Qed.

(** ** Where structure is lost *)
(** The document [cs] is written as a text that has the blocks [bs], and these
    are not the blocks of [cs]. *)
Definition misread (o : Options) (src : list str) (cs : list node) (bs : list block) : Prop :=
  exists text, out44 o src cs = Ok text /\ reads_document text bs
    /\ ~ same_document uni_ascii [] (fun _ => None) o (Wasm None) src cs bs.
Definition item44 (l : nat) (cs : list node) : node := at44 l NItem cs.
Ltac unsame := let H := fresh in intro H; apply C44_no_notes in H; [|repeat constructor|reflexivity];
  repeat match goal with
  | H : Forall2 _ (_ :: _) _ |- _ => inversion H; clear H; subst
  | H : Forall2 _ [] _ |- _ => inversion H; clear H; subst
  | H : same _ _ _ _ _ _ _ _ _ |- _ => inversion H; clear H; subst
  | H : same_item _ _ _ _ _ _ _ _ _ |- _ => inversion H; clear H; subst
  end.
Ltac misread44 := eexists; split; [vm_compute; reflexivity|split; [split; [let Q := fresh in intros (? & ? & Q & [->| ->]); vm_compute in Q; discriminate Q|exists 30; vm_compute; reflexivity]|]]; unsame.

(** Adjacent bullet lists with different markers, as in
    <<
    - a

    * b
    >>
    become one list: both are written with the configured marker. *)
Theorem C44_adjacent_lists_refuted : exists src cs, misread default_options src cs
  [SpecBlocks.List (BulletOf c_dash) [(None, [para (lit "a")]); (None, [para (lit "b")])]].
Proof.
  exists [lit "- a"; []; lit "* b"],
    [at44 1 (NList Bullet true) [item44 1 [par44 1 (lit "a")]]; at44 3 (NList Bullet true) [item44 3 [par44 3 (lit "b")]]].
  misread44.
Qed.
(** A heading [## 1. Intro] becomes an ordered list and a rule. *)
Theorem C44_numbered_heading_refuted : exists src cs, misread default_options src cs
  [SpecBlocks.List (NumberOf (lit "1") c_dot) [(None, [para (lit "Intro")])]; Rule].
Proof. exists [lit "## 1. Intro"], [at44 1 (NHeading 2) [text44 (lit "1. Intro")]]. misread44. Qed.
(** A heading in a block quote leaves the quote: [> # a]. *)
Theorem C44_quoted_heading_refuted : exists src cs, misread default_options src cs [Head 1 (lit "a")].
Proof. exists [lit "> # a"], [at44 1 NBlockQuote [at44 1 (NHeading 1) [text44 (lit "a")]]]. misread44. Qed.
(** Code in two block quotes and lists in two block quotes lose one of them. *)
Theorem C44_quoted_code_refuted : exists src cs, misread default_options src cs [Quote [Code [] [lit "a"]]].
Proof.
  exists [lit "> > ~~~"; lit "> > a"; lit "> > ~~~"], [at44 1 NBlockQuote [at44 1 NBlockQuote [at44 1 (NCodeBlock [] (lit "a" ++ [c_nl])) []]]].
  misread44.
Qed.
Theorem C44_quoted_list_refuted : exists src cs, misread default_options src cs
  [Quote [SpecBlocks.List (BulletOf c_dash) [(None, [para (lit "a")])]]].
Proof.
  exists [lit "> > - a"], [at44 1 NBlockQuote [at44 1 NBlockQuote [at44 1 (NList Bullet true) [item44 1 [par44 1 (lit "a")]]]]].
  misread44.
Qed.
(** A loose list in a block quote: the blank line between the items ends the
    quote. *)
Theorem C44_quoted_loose_list_refuted : exists src cs, misread default_options src cs
  [Quote [SpecBlocks.List (BulletOf c_dash) [(None, [para (lit "a")])]]; Quote [SpecBlocks.List (BulletOf c_dash) [(None, [para (lit "b")])]]].
Proof.
  exists [lit "> - a"; lit ">"; lit "> - b"],
    [at44 1 NBlockQuote [at44 1 (NList Bullet false) [item44 1 [par44 1 (lit "a")]; item44 3 [par44 3 (lit "b")]]]].
  misread44.
Qed.
(** An item that begins with code: the code becomes an indented block after an
    empty item, its fences part of the code. *)
Theorem C44_code_first_refuted : exists src cs, misread default_options src cs
  [SpecBlocks.List (BulletOf c_dash) [(None, [])]; Verbatim [lit "~~~~"; lit "a"; lit "~~~~"]].
Proof.
  exists [lit "- ~~~"; lit "  a"; lit "  ~~~"], [at44 1 (NList Bullet true) [item44 1 [at44 1 (NCodeBlock [] (lit "a" ++ [c_nl])) []]]].
  misread44.
Qed.
(** A paragraph after a list that details begin with: the list is written one
    column further right, so that the paragraph leaves the details and becomes
    indented code. *)
Theorem C44_listed_details_refuted : exists src cs, misread default_options src cs
  [Describe [([[lit "One"]], [SpecBlocks.List (BulletOf c_dash) [(None, [para (lit "a")])]])]; Verbatim [lit "b"]].
Proof.
  exists [lit "One"; lit ": - a"; []; lit "  b"],
    [at44 1 NDescriptionList [term44 1 (lit "One") [at44 2 (NList Bullet true) [item44 2 [par44 2 (lit "a")]]; par44 4 (lit "b")]]].
  misread44.
Qed.
(** Details of two paragraphs in a block quote: the blank line between them ends
    the quote, and the second becomes indented code in a quote of its own. *)
Theorem C44_quoted_details_refuted : exists src cs, misread default_options src cs
  [Quote [Describe [([[lit "One"]], [para (lit "a")])]]; Quote [Verbatim [lit "b"]]].
Proof.
  exists [lit "> One"; lit "> : a"; lit ">"; lit ">   b"],
    [at44 1 NBlockQuote [at44 1 NDescriptionList [term44 1 (lit "One") [par44 2 (lit "a"); par44 4 (lit "b")]]]].
  misread44.
Qed.
(** An empty block quote vanishes. *)
Theorem C44_empty_quote_refuted : exists src cs, cs <> [] /\ misread default_options src cs [].
Proof. exists [lit ">"], [at44 1 NBlockQuote []]. split; [discriminate|]. misread44. Qed.
(** A heading or a rule after the paragraph of an item becomes part of it. *)
Theorem C44_item_heading_refuted : exists src cs, misread default_options src cs
  [SpecBlocks.List (BulletOf c_dash) [(None, [Para [[lit "a###"; lit "b"]]])]].
Proof.
  exists [lit "- a"; []; lit "  ### b"], [at44 1 (NList Bullet true) [item44 1 [par44 1 (lit "a"); at44 3 (NHeading 3) [text44 (lit "b")]]]].
  misread44.
Qed.
Theorem C44_item_rule_refuted : exists src cs, misread default_options src cs
  [SpecBlocks.List (BulletOf c_dash) [(None, [Para [lit "a" :: repeat (lit "-") 37]])]].
Proof.
  exists [lit "- a"; []; lit "  ***"], [at44 1 (NList Bullet true) [item44 1 [par44 1 (lit "a"); at44 3 NThematicBreak []]]].
  misread44.
Qed.

(** An HTML block after the paragraph of an item becomes inline HTML in it. *)
Theorem C44_item_html_refuted : exists src cs, misread default_options src cs
  [SpecBlocks.List (BulletOf c_dash) [(None, [para (lit "a<hr>")])]].
Proof.
  exists [lit "- a"; []; lit "  <hr>"],
    [at44 1 (NList Bullet true) [item44 1 [par44 1 (lit "a"); at44 3 (NHtmlBlock (text_of [lit "<hr>"])) []]]].
  misread44.
Qed.
(** A block quote in an item of a list in a block quote: the outer quote ends
    before it, and it becomes code in a quote of its own. *)
Theorem C44_quoted_item_quote_refuted : exists src cs, misread default_options src cs
  [Quote [SpecBlocks.List (BulletOf c_dash) [(None, [para (lit "a")])]]; Quote [Verbatim [lit "> > b"]]].
Proof.
  exists [lit "> - a"; lit ">   > b"],
    [at44 1 NBlockQuote [at44 1 (NList Bullet true) [item44 1 [par44 1 (lit "a"); at44 2 NBlockQuote [par44 2 (lit "b")]]]]].
  misread44.
Qed.

(** Two HTML blocks at the end of a document: no blank line is written between
    them, so they become one block. *)
Theorem C44_trailing_html_refuted : exists src cs, misread default_options src cs
  [para (lit "a"); Html [lit "<div>x</div>"; lit "<p>y</p>"]].
Proof.
  exists [lit "a"; []; lit "<div>x</div>"; []; lit "<p>y</p>"],
    [par44 1 (lit "a"); at44 3 (NHtmlBlock (text_of [lit "<div>x</div>"])) []; at44 5 (NHtmlBlock (text_of [lit "<p>y</p>"])) []].
  misread44.
Qed.
Print Assumptions C44_trailing_html_refuted.

(** A footnote with a name of three bytes or more: its second paragraph is
    written so deep that it becomes code. *)
Ltac unsame_note := let H := fresh in let ns := fresh in let P := fresh in intros [_ (ns & P & H)];
  match type of P with Permutation ?a _ => let b := eval cbv [note_part filter is_note node_value at44 par44 item44 text44] in a in change a with b in P end;
  apply Permutation_length_1_inv in P; subst ns; cbn [filter is_foot] in H; inversion H as [|? ? ? ? K]; subst; clear H; inversion K; subst; clear K;
  repeat match goal with
  | H : Forall2 _ (_ :: _) _ |- _ => inversion H; clear H; subst
  | H : Forall2 _ [] _ |- _ => inversion H; clear H; subst
  | H : same _ _ _ _ _ _ _ _ _ |- _ => inversion H; clear H; subst
  | H : same_item _ _ _ _ _ _ _ _ _ |- _ => inversion H; clear H; subst
  end.
Ltac misread_note44 := eexists; split; [vm_compute; reflexivity|split; [split; [let Q := fresh in intros (? & ? & Q & [->| ->]); vm_compute in Q; discriminate Q|exists 30; vm_compute; reflexivity]|]]; unsame_note.
Theorem C44_long_footnote_refuted : exists src cs, misread default_options src cs
  [para (lit "a[^foo]"); Foot (lit "foo") [para (lit "b"); Verbatim [lit "c"]]].
Proof.
  exists [lit "a[^foo]"; []; lit "[^foo]: b"; []; lit "    c"],
    [at44 1 NParagraph [text44 (lit "a"); Node (NFootnoteReference (lit "foo")) (mkPos 1 2 1 7) []];
     at44 3 (NFootnoteDefinition (lit "foo")) [par44 3 (lit "b"); par44 5 (lit "c")]].
  misread_note44.
Qed.
(** A list in a footnote with a name of two bytes becomes code: lists are
    indented by one more column. *)
Theorem C44_footnote_list_refuted : exists src cs, misread default_options src cs
  [para (lit "a[^12]"); Foot (lit "12") [para (lit "b"); Verbatim [lit "-  c"]]].
Proof.
  exists [lit "a[^12]"; []; lit "[^12]: b"; []; lit "    - c"],
    [at44 1 NParagraph [text44 (lit "a"); Node (NFootnoteReference (lit "12")) (mkPos 1 2 1 6) []];
     at44 3 (NFootnoteDefinition (lit "12")) [par44 3 (lit "b"); at44 5 (NList Bullet true) [item44 5 [par44 5 (lit "c")]]]].
  misread_note44.
Qed.
(** Code that begins a footnote gains spaces. *)
Theorem C44_footnote_code_refuted : exists src cs, misread default_options src cs
  [para (lit "a[^1]"); Foot (lit "1") [Code [] [lit "  b"]]].
Proof.
  exists [lit "a[^1]"; []; lit "[^1]: ~~~"; lit "    b"; lit "    ~~~"],
    [at44 1 NParagraph [text44 (lit "a"); Node (NFootnoteReference (lit "1")) (mkPos 1 2 1 5) []];
     at44 3 (NFootnoteDefinition (lit "1")) [at44 3 (NCodeBlock [] (lit "b" ++ [c_nl])) []]].
  eexists. split; [vm_compute; reflexivity|]. split; [split; [intros (? & ? & Q & [->| ->]); vm_compute in Q; discriminate Q|exists 30; vm_compute; reflexivity]|].
  unsame_note. match goal with H : settles _ _ _ _ _ _ _ _ |- _ => apply settles_wasm in H; subst end. discriminate.
Qed.
(** The second item of a list that begins a footnote goes into the first: the
    first is written after the colon, where the blanks before it do not count. *)
Theorem C44_footnote_list_first_refuted : exists src cs, misread default_options src cs
  [para (lit "a[^1]"); Foot (lit "1") [SpecBlocks.List (BulletOf c_dash) [(None, [para (lit "b"); SpecBlocks.List (BulletOf c_dash) [(None, [para (lit "c")])]])]]].
Proof.
  exists [lit "a[^1]"; []; lit "[^1]: - b"; lit "    - c"],
    [at44 1 NParagraph [text44 (lit "a"); Node (NFootnoteReference (lit "1")) (mkPos 1 2 1 5) []];
     at44 3 (NFootnoteDefinition (lit "1")) [at44 3 (NList Bullet true) [item44 3 [par44 3 (lit "b")]; item44 4 [par44 4 (lit "c")]]]].
  misread_note44.
Qed.
(** A footnote of one paragraph and an alert becomes one paragraph; not even a
    space is left between the two. *)
Theorem C44_footnote_alert_refuted : exists src cs, misread default_options src cs
  [para (lit "a[^1]"); Foot (lit "1") [para (lit "bc")]].
Proof.
  exists [lit "a[^1]"; []; lit "[^1]: b"; []; lit "    > [!NOTE]"; lit "    > c"],
    [at44 1 NParagraph [text44 (lit "a"); Node (NFootnoteReference (lit "1")) (mkPos 1 2 1 5) []];
     at44 3 (NFootnoteDefinition (lit "1")) [par44 3 (lit "b"); at44 5 (NAlert Note) [par44 6 (lit "c")]]].
  misread_note44.
Qed.
(** A hard line break in a footnote of one paragraph is lost. *)
Theorem C44_footnote_break_refuted : exists src cs, misread default_options src cs
  [para (lit "a[^1]"); Foot (lit "1") [Para [[lit "b"; lit "c"]]]].
Proof.
  exists [lit "a[^1]"; []; lit "[^1]: b  "; lit "    c"],
    [at44 1 NParagraph [text44 (lit "a"); Node (NFootnoteReference (lit "1")) (mkPos 1 2 1 5) []];
     at44 3 (NFootnoteDefinition (lit "1")) [at44 3 NParagraph [text44 (lit "b"); Node NLineBreak (mkPos 0 0 0 0) []; text44 (lit "c")]]].
  misread_note44. match goal with H : para_text _ _ _ _ _ _ _ |- _ => destruct H as (? & ? & E & Ex) end. vm_compute in E. injection E as <- _. subst.
  match goal with H : map words _ = _ |- _ => vm_compute in H; discriminate H end.
Qed.
Print Assumptions C44_footnote_break_refuted.

(** Front matter, then a section, and before it in the source a footnote that
    refers to another one:
    <<
    ---
    t: 1
    ---
    [^a]: x[^b]

    ## Part

    p[^a]

    [^b]: y
    >>
    The second footnote is written before the section without a blank line
    after it: the heading [Part] continues its paragraph.  (The reader knows no
    such lines, so it reads nothing here.) *)
Theorem C44_front_matter_note_refuted : exists src cs text,
  good_document uni_ascii [] (fun _ => None) default_options (Wasm None) src cs
  /\ out44 default_options src (at44 1 (NFrontMatter (text_of [lit "---"; lit "t: 1"; lit "---"])) [] :: cs) = Ok text
  /\ starts_with (text_of [lit "---"; lit "t: 1"; lit "---"; []; lit "[^b]: y"; lit "Part"; lit "----"]) text = true
  /\ forall front bs, ~ reads_fronted text front bs.
Proof.
  exists [lit "---"; lit "t: 1"; lit "---"; lit "[^a]: x[^b]"; []; lit "## Part"; []; lit "p[^a]"; []; lit "[^b]: y"],
    [at44 6 (NHeading 2) [text44 (lit "Part")];
     at44 8 NParagraph [text44 (lit "p"); Node (NFootnoteReference (lit "a")) (mkPos 8 2 8 5) []];
     note44 4 (lit "a") [text44 (lit "x"); Node (NFootnoteReference (lit "b")) (mkPos 4 8 4 11) []];
     note44 10 (lit "b") [text44 (lit "y")]].
  eexists. split; [|split; [vm_compute; reflexivity|split; [vm_compute; reflexivity|]]].
  - constructor.
    + unfold note44, par44, at44. repeat apply Forall_cons; try apply Forall_nil; [left; head44|left; para44|right; eapply gd_note; [discriminate|repeat constructor; discriminate|repeat constructor; discriminate|vm_compute; reflexivity|no_uses|apply safe_textb_ok; vm_compute; reflexivity|absurd_in]|right; eapply gd_note; [discriminate|repeat constructor; discriminate|repeat constructor; discriminate|vm_compute; reflexivity|no_uses|apply safe_textb_ok; vm_compute; reflexivity|absurd_in]].
      split; [repeat constructor; discriminate|]. split; [lia|]. split.
      * intros _. repeat split; try (vm_compute; reflexivity); [vm_compute; lia|]. eexists. eexists. split; reflexivity.
      * intro K. exfalso. apply K. right. split; reflexivity.
    + apart44.
    + repeat constructor; [intros [K|[]]; discriminate K|intros []].
    + intros a n b l E T H M. repeat (destruct a as [|? a]; [injection E as <- <-; discriminate H|injection E as _ E]). destruct a; discriminate E.
  - intros front bs (rest & L & N & n & R). vm_compute in L. injection L as L.
    destruct front as [|f front]; [discriminate L|]. injection L as <- L. destruct front as [|f front]; [|injection L as <- _; apply N; right; left; reflexivity].
    injection L as <-. destruct n as [|[|n]]; [discriminate R|vm_compute in R; discriminate R|]. cbn [read] in R. revert R. generalize (read n). intros rec R. vm_compute in R. discriminate R.
Qed.
Print Assumptions C44_front_matter_note_refuted.

(** The default options but for the rule and the indentation. *)
Definition options44 (style : str) (leading indent : nat) : Options := {|
  line_width := 80; setext_h1 := true; setext_h2 := true; heading_sentence_case := false; heading_proper_nouns := []; heading_common_nouns := [];
  unordered_marker := UHyphen; leading_spaces := 1; trailing_spaces := 2; indent_width := indent;
  odd_level_marker := OPeriod; even_level_marker := OParenthesis; ordered_list_pad := PadStart; ordered_list_indent_width := 4;
  fence_char := FTilde; min_fence_length := 4; space_after_fence := true; default_language := [];
  thematic_break_style := style; thematic_break_leading_spaces := leading;
  curly_double_quotes := true; curly_single_quotes := true; curly_apostrophes := false; ellipsis := true;
  en_dash := DDisabled; em_dash := DPattern (lit "--"); code_formatters := []
|}.
(** A rule written as [---] at the beginning of a document opens front matter:
    such a document has no blocks at all before the front matter is taken off. *)
Theorem C44_first_rule_refuted : exists src cs text, out44 (options44 (lit "---") 0 4) src cs = Ok text
  /\ front_matter text /\ forall bs, ~ reads_document text bs.
Proof.
  exists [lit "***"; []; lit "a"; []; lit "***"], [at44 1 NThematicBreak []; par44 3 (lit "a"); at44 5 NThematicBreak []]. eexists. split; [vm_compute; reflexivity|].
  assert (F : front_matter (text_of [lit "---"; []; lit "a"; []; lit "---"])) by (eexists; eexists; split; [vm_compute; reflexivity|left; reflexivity]).
  split; [exact F|]. intros bs [K _]. exact (K F).
Qed.
(** With an indentation of two columns a nested list becomes part of the list
    around it. *)
Theorem C44_indent_width_refuted : exists src cs, misread (options44 default_thematic_break_style 3 2) src cs
  [SpecBlocks.List (BulletOf c_dash) [(None, [para (lit "a")]); (None, [para (lit "b")])]].
Proof.
  exists [lit "- a"; lit "  - b"], [at44 1 (NList Bullet true) [item44 1 [par44 1 (lit "a"); at44 2 (NList Bullet true) [item44 2 [par44 2 (lit "b")]]]]].
  misread44.
Qed.
Definition hundred : list node :=
  map (fun n => item44 n [par44 n (lit "a")]) (seq 1 99) ++ [item44 100 [par44 100 (lit "a"); par44 102 (lit "b")]].
(** Item 100 of an ordered list needs five columns; a second paragraph of it is
    written four columns in and becomes indented code. *)
Theorem C44_hundredth_item_refuted : exists src cs, misread default_options src cs
  [SpecBlocks.List (NumberOf (lit "1") c_dot) (repeat (None, [para (lit "a")]) 100); Verbatim [lit "b"]].
Proof.
  exists (repeat (lit "1. a") 100 ++ [[]; lit "   b"]), [at44 1 (NList Ordered true) hundred].
  eexists. split; [vm_compute; reflexivity|]. split; [split; [intros (? & ? & Q & [->| ->]); vm_compute in Q; discriminate Q|exists 240; vm_compute; reflexivity]|].
  intro H. apply C44_no_notes in H; [|repeat constructor|reflexivity]. inversion H as [|? ? ? ? _ H1]; subst. inversion H1.
Qed.
Print Assumptions C44_hundredth_item_refuted.
