(** C53: blocks are set apart by the documented blank lines. *)
From Coq Require Import Bool Arith NArith Lia ZifyBool ZifyNat ZifyN String List.
From Verif Require Import Base BaseFacts OptsModel CodeModel HeadingModel TableModel AstModel StateModel InlineModel WarnModel SerModel
  SpecCode SpecHeading SpecBlocks SpecEnd SpecDoc SpecStructure SpecGaps SpecSpacing StateProof BlocksProof NestProof PropsBlocks StructDoc PropsStructure.
Import ListNotations.

(** The lines of the text are arranged as the style guide says. *)
Definition well_spaced U PN ENT o B src (cs : list node) (ls : list str) : Prop :=
  exists w hs, ends_in_html cs w hs /\ arranged U PN ENT o B src hs None w ls.

(** The full claim is for all documents; it is false for documents of nothing but
    HTML ([C53_html_alone_refuted]) and for some blocks that end in blank lines
    themselves ([C53_item_heading_refuted], [C53_empty_quote_refuted]).  It is proved for
    the documents of C44 whose footnotes come last, where comrak puts them, and
    which have a block that is not HTML. *)
Theorem C53_spacing_partial : forall U PN ENT o B src ends_nl checks p cs s',
  four_columns o ->
  good_document U PN ENT o B src cs -> notes_last cs -> (exists n, In n cs /\ ~ may_trail n) ->
  serialize_root U PN ENT o B src ends_nl checks (Node NDocument p cs) = Ok s' ->
  well_spaced U PN ENT o B src cs (cm_lines (output s')) /\ output s' = text_of (cm_lines (output s')).
Proof.
  intros U PN ENT o B src ends_nl checks p cs s' Fc G Nl Nt E.
  destruct (structure_document _ _ _ _ _ _ _ _ Fc _ _ _ E G) as (ls & bs & O & Ch & _ & _ & _ & _ & La).
  rewrite O, cm_lines_text_of by exact Ch. split; [exact (La Nl Nt)|reflexivity].
Qed.
Print Assumptions C53_spacing_partial.

(** The same for [format_with_warnings]. *)
Theorem C53_format_partial : forall U PN ENT parse o B checks input p cs text ws,
  four_columns o -> parse input = Node NDocument p cs ->
  good_document U PN ENT o B (lines input) cs -> notes_last cs -> (exists n, In n cs /\ ~ may_trail n) ->
  input <> [] -> format_with_warnings U PN ENT parse o B checks input = Ok (text, ws) ->
  well_spaced U PN ENT o B (lines input) cs (cm_lines text) /\ text = text_of (cm_lines text).
Proof.
  intros U PN ENT parse o B checks input p cs text ws Fc Ep G Nl Nt N E. unfold format_with_warnings in E. rewrite Ep in E.
  destruct input as [|c input]; [congruence|]. cbn [is_nil] in E.
  destruct (serialize_root _ _ _ _ _ _ _ _ _) as [s'|] eqn:Es; [|discriminate]. cbn [rbind] in E. injection E as <- _.
  eapply C53_spacing_partial; eassumption.
Qed.
Print Assumptions C53_format_partial.

(** After front matter comes one blank line, and then the same. *)
Theorem C53_front_matter_partial : forall U PN ENT o B src ends_nl checks p q ics content cs s',
  four_columns o ->
  good_document U PN ENT o B src cs -> notes_last cs -> (exists n, In n cs /\ ~ may_trail n) ->
  (forall level q' ics' cs', cs = Node (NHeading level) q' ics' :: cs' -> level <> 2 /\ level <> 3) \/ Forall (fun n => is_note n = false) cs ->
  serialize_root U PN ENT o B src ends_nl checks (Node NDocument p (Node (NFrontMatter content) q ics :: cs)) = Ok s' ->
  exists ls, output s' = trim content ++ [c_nl] ++ text_of ([] :: ls) /\ well_spaced U PN ENT o B src cs ls.
Proof.
  intros U PN ENT o B src ends_nl checks p q ics content cs s' Fc G Nl Nt Hs E.
  destruct (structure_fronted U PN ENT o B src ends_nl checks Fc p q ics content cs s' E G) as (ls & bs & O & Ch & _ & _ & _ & La).
  { destruct Hs as [Hs|Hs].
    - left. destruct cs as [|[v q' ics'] cs']; [exact Logic.I|]. unfold section_start, heading_level. cbn [node_value]. destruct v; try reflexivity.
      destruct (Hs _ _ _ _ eq_refl) as [H2 H3]. destruct level as [|[|[|[|?]]]]; try reflexivity; congruence.
    - right. clear - Hs. unfold note_part. induction Hs as [|n cs H Hs IH]; [reflexivity|]. cbn [filter]. rewrite H. exact IH. }
  exists ls. split; [exact O|exact (La Nl Nt)].
Qed.
Print Assumptions C53_front_matter_partial.

(** Whatever is arranged so begins with a line that is not blank and ends with
    a character. *)
Theorem C53_first_line : forall U PN ENT o B src hs cs ls, arranged U PN ENT o B src hs None cs ls -> cs <> [] ->
  exists l r, ls = l :: r /\ is_blank l = false.
Proof.
  intros U PN ENT o B src hs cs ls H N. inversion H as [prev n cs' gs b lb rest Cg Wg Sm Rd Sl Spc Ar|]; subst; [|congruence].
  destruct Wg as [->|[_ Q]]; [|congruence]. destruct Sl as ((l & r & -> & Bl) & _). cbn. eauto.
Qed.
(** Two blocks of a section have exactly one blank line between them. *)
Theorem C53_within_section : forall U PN ENT o B src hs prev a b cs ls, arranged U PN ENT o B src hs (Some prev) (a :: b :: cs) ls ->
  ~ begins_section a -> ~ begins_section b ->
  exists la lb rest ba bb, ls = [] :: la ++ [] :: lb ++ rest /\ solid la /\ solid lb
    /\ reads la [ba] /\ reads lb [bb] /\ same U PN ENT o B src 0 a ba /\ same U PN ENT o B src 0 b bb
    /\ spaced_block a la /\ spaced_block b lb.
Proof.
  assert (One : forall p n, ~ begins_section n -> blanks_between (Some p) n = 1).
  { intros p n H. unfold blanks_between, begins_section in *. destruct (head_of p); [reflexivity|]. destruct (head_of n) as [[|[|[|l]]]|]; try reflexivity. exfalso. auto. }
  intros U PN ENT o B src hs prev a b cs ls H Na Nb. inversion H as [? ? ? ga ba la rest Cg Wg Sm Rd Sl Spc Ar|]; subst. inversion Ar as [? ? ? gb bb lb rest' Cg' Wg' Sm' Rd' Sl' Spc' Ar'|]; subst.
  destruct Wg as [->|[Q _]]; [|contradiction]. destruct Wg' as [->|[Q _]]; [|contradiction]. rewrite (One prev a Na), (One a b Nb). cbn [set_apart flat_map repeat app].
  exists la, lb, rest', ba, bb. auto 12.
Qed.
Print Assumptions C53_within_section.
(** Before a section heading that does not follow another heading there are two
    blank lines, with or without notes and definitions before them. *)
Theorem C53_before_section : forall U PN ENT o B src hs prev n cs ls, arranged U PN ENT o B src hs (Some prev) (n :: cs) ls ->
  head_of n = Some 2 -> head_of prev = None ->
  exists gs lb rest b, ls = set_apart gs ++ [] :: [] :: lb ++ rest /\ closing gs /\ solid lb /\ reads lb [b] /\ same U PN ENT o B src 0 n b.
Proof.
  intros U PN ENT o B src hs prev n cs ls H Hn Hp. inversion H as [? ? ? ga ba la rest Cg Wg Sm Rd Sl Spc Ar|]; subst.
  unfold blanks_between. rewrite Hn, Hp. cbn [repeat app]. exists ga, la, rest, ba. auto.
Qed.
Print Assumptions C53_before_section.

(** ** Inside lists *)
(** A list without any blank line in it: it is tight, its items are empty, or a
    paragraph, or a paragraph with such a list directly below. *)
Inductive dense : node -> Prop :=
| de_list : forall kind p cs, Forall dense_item cs -> dense (Node (NList kind true) p cs)
with dense_item : node -> Prop :=
| di_empty : forall v p, dense_item (Node v p [])
| di_text : forall v p q ics, dense_item (Node v p [Node NParagraph q ics])
| di_list : forall v p q ics l, dense l -> ~ source_gap (Node NParagraph q ics) l -> dense_item (Node v p [Node NParagraph q ics; l]).
Lemma blank_app : forall a b, is_blank (a ++ b) = is_blank a && is_blank b.
Proof. intros a b. apply forallb_app. Qed.
Lemma in_item_blank : forall ls, Forall (fun l => is_blank l = false) ls -> Forall (fun l => is_blank l = false) (map in_item ls).
Proof. intros ls F. apply Forall_map. eapply Forall_impl; [|exact F]. intros [|c l] H; exact H. Qed.
(** However it is written, there is no blank line in it. *)
Theorem C53_dense_list : forall n ls, dense n -> spaced_block n ls -> Forall (fun l => is_blank l = false) ls.
Proof.
  assert (P : forall n, (forall ls, dense n -> spaced_block n ls -> Forall (fun l => is_blank l = false) ls)
    /\ (forall ls, dense_item n -> spaced_item n ls -> Forall (fun l => is_blank l = false) ls)
    /\ (forall ls, node_value n = NParagraph -> spaced_block n ls -> Forall (fun l => is_blank l = false) ls)).
  { induction n as [v p cs IH] using node_ind'. split; [|split].
    - intros ls D Sp. inversion D as [kind q cs' F]; subst. inversion Sp as [? ? K|? ? K| | |? tight ? ? ? Si]; subst; try destruct K.
      remember true as tight. clear D Sp. induction Si as [tight n ls Sn|tight n ls cs rest Sn Nc Si IHs]; subst tight.
      + inversion F; subst. inversion IH as [|? ? (_ & H & _) _]; subst. apply H; assumption.
      + inversion F; subst. inversion IH as [|? ? (_ & H & _) IH']; subst. apply Forall_app. split; [apply H; assumption|]. apply IHs; auto.
    - intros ls D Sn. inversion Sn as [? ? mark Bm|? ? mark c l ls' cs' rest Bm Sc Sr]; subst; [constructor; [exact Bm|constructor]|].
      assert (Hm : is_blank (mark ++ l) = false) by (rewrite blank_app, Bm; reflexivity).
      inversion D as [|? ? q ics|? ? q ics ll Dl Sg]; subst.
      + inversion IH as [|? ? (_ & _ & H) _]; subst. specialize (H _ eq_refl Sc). inversion Sr; subst. rewrite app_nil_r. constructor; [exact Hm|]. apply in_item_blank. inversion H; assumption.
      + inversion IH as [|? ? (_ & _ & H) IH']; subst. inversion IH' as [|? ? (Hl & _) _]; subst. specialize (H _ eq_refl Sc).
        inversion Sr as [|? ? ls2 ? rest2 Sl Sr2]; subst. inversion Sr2; subst. constructor; [exact Hm|]. apply in_item_blank. apply Forall_app. split; [inversion H; assumption|].
        destruct Dl as [kind p' cs' F]. unfold gap_lines. cbn [node_value].
        replace (_ <? _) with false by (symmetry; apply Nat.ltb_ge; unfold source_gap in Sg; lia). cbn [repeat app]. rewrite app_nil_r. apply Hl; [constructor; exact F|exact Sl].
    - intros ls V Sp. cbn [node_value] in V. subst v. inversion Sp; subst; [assumption|contradiction]. }
  intros n ls D Sp. apply (proj1 (P n)); assumption.
Qed.
Print Assumptions C53_dense_list.
(** The items of a loose list have one blank line between them; so have the
    blocks of a quote. *)
Theorem C53_loose_list : forall kind p a b cs ls, spaced_block (Node (NList kind false) p (a :: b :: cs)) ls ->
  exists la lb, ls = la ++ [] :: lb /\ spaced_item a la /\ spaced_block (Node (NList kind false) p (b :: cs)) lb
    /\ (exists l r, la = l :: r /\ is_blank l = false) /\ (exists l r, lb = l :: r /\ is_blank l = false).
Proof.
  assert (H0 : forall n ls, spaced_item n ls -> exists l r, ls = l :: r /\ is_blank l = false).
  { intros n ls H. destruct H as [v p mark Bm|v p mark c l ls cs rest Bm Sc Sr]; eexists _, _; (split; [reflexivity|]); [exact Bm|]. rewrite blank_app, Bm. reflexivity. }
  intros kind p a b cs ls H. inversion H as [? ? K|? ? K| | |? ? ? ? ? Si]; subst; try destruct K. inversion Si as [|? ? la ? rest Sa _ Sb]; subst.
  exists la, rest. split; [reflexivity|]. split; [exact Sa|]. split; [constructor; exact Sb|]. split; [exact (H0 _ _ Sa)|].
  inversion Sb as [? ? ? Sn|? ? l2 ? r2 Sn]; subst; [exact (H0 _ _ Sn)|]. destruct (H0 _ _ Sn) as (l & r & -> & Bl). cbn [app]. eauto.
Qed.
Print Assumptions C53_loose_list.

(** A footnote before a section, HTML in the middle and at the end. *)
Lemma out44_spaced : forall o src cs text, out44 o src cs = Ok text -> four_columns o ->
  good_document uni_ascii [] (fun _ => None) o (Wasm None) src cs -> notes_last cs -> (exists n, In n cs /\ ~ may_trail n) ->
  well_spaced uni_ascii [] (fun _ => None) o (Wasm None) src cs (cm_lines text).
Proof.
  intros o src cs text E Fc G Nl Nt. unfold out44 in E. destruct (serialize_root _ _ _ _ _ _ _ _ _) as [s'|] eqn:Es; [|discriminate E]. injection E as <-.
  eapply C53_spacing_partial; eassumption.
Qed.
Example C53_example : well_spaced uni_ascii [] (fun _ => None) default_options (Wasm None) src44 rich44 (cm_lines rich_text44).
Proof.
  apply out44_spaced; [exact C44_rich_output|constructor; cbn; lia|exact C44_rich_good| |].
  - exists (removelast rich44), [last rich44 (text44 [])]. split; [reflexivity|]. split; [|repeat constructor; eexists; reflexivity].
    unfold rich44, par44, note44, at44. cbn [removelast]. repeat constructor; intros [? Q]; discriminate Q.
  - exists (hd (text44 []) rich44). split; [left; reflexivity|]. intro Q. apply DocProof.may_trail_iff in Q. discriminate Q.
Qed.
Example C53_example_lines : cm_lines rich_text44 =
  [lit "Intro[^n] text."; []; lit "| Name | Use  |"; lit "| ---- | :--: |"; lit "| a    | b\|c |"; [];
   lit "> | x   |"; lit "> | --- |"; lit "> | y   |"; []; lit "<!-- kept -->"; []; lit "[^n]: The note continues."; []; [];
   lit "Part"; lit "----"; []; lit "<div>"; lit "end"; lit "</div>"; []; lit "Done."; []; lit "<!-- one -->"; lit "<div>two</div>"].
Proof. vm_compute. reflexivity. Qed.
(** Lists, loose and tight, an item with a list and code, an alert. *)
Example C53_nested_example : well_spaced uni_ascii [] (fun _ => None) default_options (Wasm None) src44 cs44 (cm_lines text_44).
Proof.
  apply out44_spaced; [exact C44_output|constructor; cbn; lia|exact C44_good| |].
  - exists cs44, []. split; [symmetry; apply app_nil_r|]. split; [|constructor]. unfold cs44, par44, at44. repeat constructor; intros [? Q]; discriminate Q.
  - exists (hd (text44 []) cs44). split; [left; reflexivity|]. intro Q. apply DocProof.may_trail_iff in Q. discriminate Q.
Qed.
Definition dense53 : node :=
  at44 1 (NList Bullet true) [at44 1 NItem [par44 1 (lit "a"); at44 2 (NList Ordered true) [at44 2 NItem [par44 2 (lit "b")]; at44 3 NItem []]]; at44 4 NItem [par44 4 (lit "c")]].
Example C53_dense_example : dense dense53 /\ out44 default_options src44 [dense53] = Ok (text_of [lit " -  a"; lit "    1)  b"; lit "    2)  "; lit " -  c"]).
Proof. split; [|vm_compute; reflexivity]. unfold dense53, par44, at44. repeat (constructor; auto). unfold source_gap. cbn. lia. Qed.
(** The same list is not allowed a blank line anywhere, and the loose list must
    have its own. *)
Example C53_dense_not : ~ spaced_block dense53 [lit " -  a"; []; lit "    1)  b"; lit "    2)  "; lit " -  c"].
Proof.
  intro H. apply C53_dense_list in H; [|exact (proj1 C53_dense_example)]. inversion H as [|? ? _ H']; subst. inversion H' as [|? ? K _]; subst. discriminate K.
Qed.
(** The relation is not met by other spacings: no blank line, or two, before a
    paragraph. *)
Example C53_not_any : forall U PN ENT o B src hs p q ics cs x ls,
  arranged U PN ENT o B src hs (Some p) (Node NParagraph q ics :: cs) (x :: ls) -> x = [] /\ forall y ls', ls = y :: ls' -> is_blank y = false.
Proof.
  intros U PN ENT o B src hs p q ics cs x ls H. inversion H as [? ? ? gs b lb rest Cg Wg Sm Rd Sl Spc Ar Q0 Q1 Q2|]; subst.
  destruct Wg as [->|[[K|K] _]]; try discriminate K. unfold blanks_between in Q2. cbn [head_of node_value] in Q2.
  replace (match head_of p with Some _ => 1 | None => 1 end) with 1 in Q2 by (destruct (head_of p); reflexivity).
  destruct Sl as ((l & r & -> & Bl) & _). cbn in Q2. injection Q2 as <- <-. split; [reflexivity|]. intros y ls' Q. injection Q as <- _. exact Bl.
Qed.

(** ** Where it is false *)
(** A document of HTML alone begins with two blank lines. *)
Theorem C53_html_alone_refuted : exists cs, cs = [at44 1 (NHtmlBlock (text_of [lit "<!-- a -->"])) []]
  /\ out44 default_options [lit "<!-- a -->"] cs = Ok (text_of [[]; []; lit "<!-- a -->"]).
Proof. eexists. split; [reflexivity|]. vm_compute. reflexivity. Qed.
Print Assumptions C53_html_alone_refuted.
(** After a list whose last item ends with a heading there are two blank lines. *)
Theorem C53_item_heading_refuted : exists cs,
  cs = [at44 1 (NList Bullet true) [at44 1 NItem [at44 1 (NHeading 3) [text44 (lit "h")]]]; par44 3 (lit "a")]
  /\ out44 default_options [lit "- ### h"; []; lit "a"] cs = Ok (text_of [lit " -  ### h"; []; []; lit "a"]).
Proof. eexists. split; [reflexivity|]. vm_compute. reflexivity. Qed.
Print Assumptions C53_item_heading_refuted.
(** An empty quote is written as nothing, between two blank lines. *)
Theorem C53_empty_quote_refuted : exists cs,
  cs = [par44 1 (lit "x"); at44 3 NBlockQuote []; par44 5 (lit "a")]
  /\ out44 default_options [lit "x"; []; lit ">"; []; lit "a"] cs = Ok (text_of [lit "x"; []; []; lit "a"]).
Proof. eexists. split; [reflexivity|]. vm_compute. reflexivity. Qed.
Print Assumptions C53_empty_quote_refuted.
(** Two blank lines inside an item: code after code, a paragraph after a quote. *)
Theorem C53_item_code_refuted : exists cs,
  cs = [at44 1 (NList Bullet false) [at44 1 NItem [par44 1 (lit "a"); at44 3 (NCodeBlock [] (text_of [lit "x"])) []; at44 7 (NCodeBlock [] (text_of [lit "y"])) []]]]
  /\ out44 default_options src44 cs = Ok (text_of [lit " -  a"; []; lit "    ~~~~"; lit "    x"; lit "    ~~~~"; []; []; lit "    ~~~~"; lit "    y"; lit "    ~~~~"]).
Proof. eexists. split; [reflexivity|]. vm_compute. reflexivity. Qed.
Print Assumptions C53_item_code_refuted.
Theorem C53_item_quote_refuted : exists cs,
  cs = [at44 1 (NList Bullet false) [at44 1 NItem [par44 1 (lit "a"); at44 3 NBlockQuote [par44 3 (lit "b")]; par44 5 (lit "c")]]]
  /\ out44 default_options src44 cs = Ok (text_of [lit " -  a"; []; lit "    > b"; []; []; lit "    c"]).
Proof. eexists. split; [reflexivity|]. vm_compute. reflexivity. Qed.
Print Assumptions C53_item_quote_refuted.
