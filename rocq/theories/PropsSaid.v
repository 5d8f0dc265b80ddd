(** C48: a formatted document says what it said: the blocks of C44 with the
    inline content of C46. *)
From Coq Require Import Bool Arith NArith Lia ZifyBool ZifyNat ZifyN String List Permutation.
From Verif Require Import Base BaseFacts EscapeModel WrapModel SpecWrap OptsModel PunctModel CodeModel HeadingModel TableModel AstModel StateModel
  InlineModel WarnModel SerModel SpecCode SpecHeading SpecRefs SpecBlocks SpecEnd SpecStructure SpecContext SpecDoc SpecInline SpecText SpecEmph EmphProof
  StateProof NestProof ParaProof StructDoc UsesProof PropsState PropsText PropsRefs PropsStructure EmphDoc ProseProof PropsEmph PropsProse.
Import ListNotations.

(** The text of a paragraph that was read as words: its lines, the words on each
    apart by one space. *)
Definition said (ws : list (list str)) : str := join [c_nl] (map (join [c_sp]) ws).

Section Said.
Variable U : Uni.
Variable PN : list (str * str).
Variable ENT : str -> option str.
Variable o : Options.
Variable B : backend.
Variable src : list str.
Variables space punct : char -> bool.
Variable defs : str -> option (str * str).
Variable notes : str -> bool.
Variable raw : str -> option (inl * nat).
Let reads_as (text : str) (cs : list node) : Prop :=
  exists xs, Forall2 (says U o) cs xs /\ read_inlines ENT space punct defs notes raw text = List.concat xs.

(** The block says what the node says: as [same] of C44, with the inline content
    in place of the text. *)
Inductive tells : nat -> node -> block -> Prop :=
| tl_para : forall d p cs ws, reads_as (said ws) cs -> tells d (Node NParagraph p cs) (Para ws)
| tl_head : forall d level p cs t, reads_as t cs -> tells d (Node (NHeading level) p cs) (Head level t)
| tl_code : forall d info literal p cs b, same U PN ENT o B src d (Node (NCodeBlock info literal) p cs) b ->
    tells d (Node (NCodeBlock info literal) p cs) b
| tl_rule : forall d p cs, tells d (Node NThematicBreak p cs) Rule
| tl_quote : forall d p cs bs, Forall2 (tells 0) cs bs -> tells d (Node NBlockQuote p cs) (Quote bs)
| tl_alert : forall d a p cs bs, Forall2 (tells 0) cs bs -> tells d (Node (NAlert a) p cs) (Alert (alert_word a) bs)
| tl_list : forall d kind tight p cs items, Forall2 (tells_item (S d)) cs items ->
    tells d (Node (NList kind tight) p cs) (SpecBlocks.List (list_marker o kind (S d)) items)
| tl_table : forall d aligns p rows t,
    Forall2 (fun row => Forall2 (fun c y => reads_as y (node_children c)) (node_children row)) rows t ->
    tells d (Node (NTable aligns) p rows) (Table aligns t)
| tl_html : forall d literal p cs, tells d (Node (NHtmlBlock literal) p cs) (Html (cm_lines literal))
| tl_describe : forall d p cs es, Forall2 tells_entry cs es -> tells d (Node NDescriptionList p cs) (Describe es)
with tells_item : nat -> node -> option bool * list block -> Prop :=
| tl_item : forall d p cs bs, Forall2 (tells d) cs bs -> tells_item d (Node NItem p cs) (None, bs)
| tl_task : forall d symbol p cs bs, Forall2 (tells d) cs bs ->
    tells_item d (Node (NTaskItem symbol) p cs) (Some (match symbol with Some _ => true | None => false end), bs)
with tells_entry : node -> list (list str) * list block -> Prop :=
| tl_entry : forall p q r t ts ds ws bs, reads_as (said ws) ts -> Forall2 (fun n => tells (detail_depth n) n) ds bs ->
    tells_entry (Node NDescriptionItem p [Node NDescriptionTerm q [Node NParagraph t ts]; Node NDescriptionDetails r ds]) (ws, bs).
Inductive tells_note : node -> block -> Prop :=
| tl_note : forall name p cs bs, Forall2 (tells 0) cs bs -> tells_note (Node (NFootnoteDefinition name) p cs) (Foot name bs).
Definition tells_document (cs : list node) (bs : list block) : Prop :=
  Forall2 (tells 0) (main_part cs) (filter is_main bs)
  /\ exists ns, Permutation (note_part cs) ns /\ Forall2 tells_note ns (filter is_foot bs).

(** What is written for [cs], [s], is a layout of them as C46 wants it: every
    tree that is in its source has a layout, and here its marks stand where
    they are marks and its links lead where they should. *)
Definition well_laid (title : bool) (cs : list node) (s : str) : Prop :=
  exists used ls, Forall2 (lays U ENT o src title used) cs ls /\ EmphDoc.apart cs /\ spell ls = s
    /\ placed ENT space punct defs notes raw [] None ls None.
(** No white space but single spaces and line endings between words. *)
Definition tidy (x : str) : Prop := trim x = x /\ said (map words (segments x)) = SpecRefs.spaced x.
Definition fine_cell (c : node) : Prop :=
  exists x evs, inline_content U ENT o src c = Ok (x, evs) /\ well_laid false (node_children c) (bare_pipes x).
(** Paragraphs, headings and cells all the way down. *)
Fixpoint fine (n : node) : Prop :=
  match n with
  | Node v _ cs =>
      match v with
      | NParagraph => exists x evs, inline_content U ENT o src n = Ok (x, evs) /\ tidy x /\ well_laid false cs (SpecRefs.spaced x)
      | NHeading _ => heading_sentence_case o = false /\ exists t evs, collect_text U ENT o src n = Ok (t, evs) /\ well_laid true cs t
      | NTable _ => Forall (fun row => Forall fine_cell (node_children row)) cs
      | NBlockQuote | NAlert _ | NList _ _ | NItem | NTaskItem _ | NFootnoteDefinition _
      | NDescriptionList | NDescriptionItem | NDescriptionTerm | NDescriptionDetails =>
          (fix all (l : list node) : Prop := match l with [] => True | c :: r => fine c /\ all r end) cs
      | _ => True
      end
  end.
Lemma fine_all : forall cs,
  (fix all (l : list node) : Prop := match l with [] => True | c :: r => fine c /\ all r end) cs <-> Forall fine cs.
Proof.
  induction cs as [|c r IH]; [split; [constructor|constructor]|]. rewrite IH. split.
  - intros [H1 H2]. constructor; assumption.
  - intro F. inversion F. auto.
Qed.
Hypothesis raw_gap : forall c r, gap c = true -> raw (c :: r) = None.
Lemma well_laid_reads : forall title cs s, well_laid title cs s -> reads_as s cs.
Proof.
  intros title cs s (used & ls & F & A & <- & P). destruct (lays_list U ENT o src title used cs ls F A) as [(xs & X & C) Q].
  exists xs. split; [exact X|]. rewrite <- C. apply placed_reads; assumption.
Qed.
Lemma tells_list : forall (A C : Type) (P Q : A -> C -> Prop) cs bs, Forall (fun c => forall b, P c b -> Q c b) cs -> Forall2 P cs bs -> Forall2 Q cs bs.
Proof.
  intros A C P Q cs bs F H. induction H as [|c b cs bs H1 _ IH]; [constructor|]. inversion F; subst. constructor; auto.
Qed.
Lemma para_tells : forall d p cs x, fine (Node NParagraph p cs) -> para_text U ENT o src d (Node NParagraph p cs) x ->
  reads_as (said (map words (segments x))) cs.
Proof.
  intros d p cs x (y & evs & E & [T W] & L) (y' & evs' & E' & X).
  rewrite E in E'. injection E' as <- <-. rewrite T in X. replace x with y by (destruct (d =? 0); auto).
  rewrite W. eapply well_laid_reads. exact L.
Qed.
Lemma same_tells : forall n,
  (forall d b, fine n -> same U PN ENT o B src d n b -> tells d n b)
  /\ (forall d x, fine n -> same_item U PN ENT o B src d n x -> tells_item d n x)
  /\ (forall e, fine n -> same_entry U PN ENT o B src n e -> tells_entry n e)
  /\ (forall bs, Forall fine (node_children n) -> Forall2 (fun c => same U PN ENT o B src (detail_depth c) c) (node_children n) bs ->
        Forall2 (fun c => tells (detail_depth c) c) (node_children n) bs).
Proof.
  apply node_ind'. intros v p cs IH.
  assert (K : forall d bs, Forall fine cs -> Forall2 (same U PN ENT o B src d) cs bs -> Forall2 (tells d) cs bs).
  { intros d bs F H. eapply tells_list; [|exact H]. rewrite Forall_forall in *. intros c I b S1. apply (IH c I); [apply F; exact I|exact S1]. }
  assert (K' : forall d bs, Forall fine cs -> Forall2 (same_item U PN ENT o B src d) cs bs -> Forall2 (tells_item d) cs bs).
  { intros d bs F H. eapply tells_list; [|exact H]. rewrite Forall_forall in *. intros c I b S1. apply (IH c I); [apply F; exact I|exact S1]. }
  split; [|split; [|split]].
  - intros d b F S1. inversion S1; subst; clear S1; cbn [fine] in F.
    + constructor. eapply para_tells; eassumption.
    + destruct F as [SC (y & evs & E & L)]. constructor. match goal with H : head_text _ _ _ _ _ _ _ |- _ => destruct H as (y' & evs' & E' & X) end.
      rewrite SC in X. subst y'. rewrite E in E'. injection E' as <- <-. eapply well_laid_reads. exact L.
    + constructor. econstructor. eassumption.
    + constructor.
    + constructor. apply K; [apply fine_all; exact F|assumption].
    + constructor. apply K; [apply fine_all; exact F|assumption].
    + constructor. apply K'; [apply fine_all; exact F|assumption].
    + constructor. eapply tells_list; [|eassumption]. eapply Forall_impl; [|exact F]. intros row Fr ys. apply tells_list. eapply Forall_impl; [|exact Fr].
      intros c (x & evs & E & L) y (x' & (evs' & E') & ->). rewrite E in E'. injection E' as <- <-. eapply well_laid_reads. exact L.
    + constructor.
    + constructor. apply fine_all in F. eapply tells_list; [|eassumption]. rewrite Forall_forall in *. intros c I e S1. apply (IH c I); [apply F; exact I|exact S1].
  - intros d x F S1. inversion S1; subst; clear S1; cbn [fine] in F; constructor; (apply K; [apply fine_all; exact F|assumption]).
  - intros e F S1. inversion S1; subst; clear S1. destruct F as [[F1 _] [F2 _]]. apply (proj1 (fine_all ds)) in F2. constructor; [eapply para_tells; eassumption|].
    inversion IH as [|? ? _ IH2]; subst. apply Forall_inv in IH2. destruct IH2 as (_ & _ & _ & IH2). apply IH2; assumption.
  - intros bs F H. cbn [node_children] in *. eapply tells_list; [|exact H]. rewrite Forall_forall in *. intros c I b S1. apply (IH c I); [apply F; exact I|exact S1].
Qed.
Lemma same_note_tells : forall n b, fine n -> same_note U PN ENT o B src n b -> tells_note n b.
Proof.
  intros n b F S1. inversion S1; subst; clear S1. cbn [fine] in F. apply fine_all in F. constructor.
  eapply tells_list; [|eassumption]. eapply Forall_impl; [|exact F]. intros c Fc b. apply (same_tells c). exact Fc.
Qed.
Lemma document_tells : forall cs bs, Forall fine cs -> same_document U PN ENT o B src cs bs -> tells_document cs bs.
Proof.
  intros cs bs F [S1 (ns & Pm & Sn)]. rewrite Forall_forall in F. split.
  - eapply tells_list; [|exact S1]. apply Forall_forall. intros c I b. apply (same_tells c). apply F. unfold main_part in I. apply filter_In in I. apply I.
  - exists ns. split; [exact Pm|]. eapply tells_list; [|exact Sn]. apply Forall_forall. intros c I b. apply same_note_tells. apply F.
    apply (Permutation_in c (Permutation_sym Pm)) in I. apply filter_In in I. apply I.
Qed.

(** *** Prose *)
Definition prosaic_cell (c : node) : Prop :=
  (exists x evs, inline_content U ENT o src c = Ok (x, evs) /\ bare_pipes x = x)
  /\ Forall (emphatic U ENT o src false) (node_children c) /\ EmphDoc.apart (node_children c) /\ proses U ENT o src space punct defs notes raw false false [] true (node_children c) true.
(** Paragraphs, headings and cells of prose, as in C46. *)
Fixpoint prosaic (n : node) : Prop :=
  match n with
  | Node v _ cs =>
      match v with
      | NParagraph => (exists x evs, inline_content U ENT o src n = Ok (x, evs) /\ tidy x)
          /\ Forall (emphatic U ENT o src false) cs /\ EmphDoc.apart cs /\ proses U ENT o src space punct defs notes raw false false [] true cs true
      | NHeading _ => heading_sentence_case o = false /\ (exists t evs, collect_text U ENT o src n = Ok (t, evs))
          /\ Forall (emphatic U ENT o src true) cs /\ EmphDoc.apart cs /\ proses U ENT o src space punct defs notes raw true false [] true cs true
      | NTable _ => Forall (fun row => Forall prosaic_cell (node_children row)) cs
      | NBlockQuote | NAlert _ | NList _ _ | NItem | NTaskItem _ | NFootnoteDefinition _
      | NDescriptionList | NDescriptionItem | NDescriptionTerm | NDescriptionDetails =>
          (fix all (l : list node) : Prop := match l with [] => True | c :: r => prosaic c /\ all r end) cs
      | _ => True
      end
  end.
Lemma prosaic_all : forall cs,
  (fix all (l : list node) : Prop := match l with [] => True | c :: r => prosaic c /\ all r end) cs <-> Forall prosaic cs.
Proof.
  induction cs as [|c r IH]; [split; [constructor|constructor]|]. rewrite IH. split.
  - intros [H1 H2]. constructor; assumption.
  - intro F. inversion F. auto.
Qed.
Hypothesis Names : forall n m, ENT n = Some m -> n <> [] /\ forallb is_ascii_alnum n = true.
Hypothesis Punct : forall c, is_ascii_punct c = true -> punct c = true.
Hypothesis Space : forall c, gap c = true -> space c = true.
Hypothesis Apart : forall c, punct c = true -> space c = false.
Lemma prose_well_laid : forall title cs out evs g, g = c_nul \/ g = c_sp ->
  Forall (emphatic U ENT o src title) cs -> EmphDoc.apart cs ->
  proses U ENT o src space punct defs notes raw title false [] true cs true ->
  wcat (with_next (collect U ENT o src title) cs) = Ok (out, evs) ->
  (forall r, In (EvUse r) evs -> defined defs (ref_label r) = Some (ref_url r, ref_title r)) -> well_laid title cs (sub g out).
Proof.
  intros title cs out evs g G E A P H D. set (used r := In (EvUse r) evs).
  destruct (kids_lay U ENT o src title used cs out evs g G (proj2 (Forall_forall _ _) (fun n _ => node_laid U ENT Names o src title used n)) E H (fun r I => I)) as (ls & F & S0 & J).
  exists used, ls. split; [exact F|]. split; [exact A|]. split; [exact S0|].
  exact (prose_placed U ENT o src space punct defs notes raw title used D Punct Space Apart cs ls F J P).
Qed.
Lemma spaced_sub : forall s, SpecRefs.spaced s = sub c_sp s.
Proof. reflexivity. Qed.
Lemma prosaic_fine : forall n, (forall r, refers U ENT o src n r -> defined defs (ref_label r) = Some (ref_url r, ref_title r)) -> prosaic n -> fine n.
Proof.
  apply (node_ind' (fun n => (forall r, refers U ENT o src n r -> defined defs (ref_label r) = Some (ref_url r, ref_title r)) -> prosaic n -> fine n)). intros v p cs IH D H.
  assert (K : match v with NBlockQuote | NAlert _ | NList _ _ | NItem | NTaskItem _ | NFootnoteDefinition _
                     | NDescriptionList | NDescriptionItem | NDescriptionTerm | NDescriptionDetails => True | _ => False end -> Forall prosaic cs -> Forall fine cs).
  { intros V F. rewrite Forall_forall in *. intros c I. apply IH; [exact I| |apply F; exact I]. intros r R. apply D. eapply rf_in; eassumption. }
  destruct v; try exact Logic.I; try (apply fine_all; apply K; [exact Logic.I|]; apply prosaic_all; exact H); clear K; cbn [prosaic fine] in *.
  - destruct H as ((x & evs & E & T) & F & A & P). exists x, evs. split; [exact E|]. split; [exact T|].
    rewrite spaced_sub. apply (prose_well_laid false cs x evs c_sp (or_intror eq_refl) F A P); [exact E|]. intros r I. apply D. eapply rf_para; eassumption.
  - destruct H as (SC & (t & evs & E) & F & A & P). split; [exact SC|]. exists t, evs. split; [exact E|].
    rewrite <- (sub_nul t). apply (prose_well_laid true cs t evs c_nul (or_introl eq_refl) F A P); [|intros r I; apply D; eapply rf_head; eassumption].
    rewrite <- E. unfold collect. rewrite with_next_map. reflexivity.
  - rewrite Forall_forall in *. intros row Ir. specialize (H row Ir). rewrite Forall_forall in *. intros c Ic. destruct (H c Ic) as ((x & evs & E & Bp) & F & A & P).
    exists x, evs. split; [exact E|]. rewrite Bp.
    rewrite <- (sub_nul x). apply (prose_well_laid false (node_children c) x evs c_nul (or_introl eq_refl) F A P); [exact E|]. intros r I. apply D. eapply rf_cell; eassumption.
Qed.
End Said.

(** C48: the documents of C44, with paragraphs and headings as in C46 and C47,
    are written so that a reader finds blocks that say what the nodes say.
    [defs] and [notes] are the definitions the reader has collected: that those
    of the links are among the lines that are written is C25.
    Partial: the exclusions of C44, C46 and C47; sentence case; white space in a
    paragraph that is not a single space between words. *)
Theorem C48_says_the_same_partial : forall U PN ENT o B src ends_nl checks space punct defs notes raw p cs s',
  (forall c r, gap c = true -> raw (c :: r) = None) ->
  four_columns o ->
  good_document U PN ENT o B src cs ->
  (forall q cs0 cs1, cs = Node NThematicBreak q cs0 :: cs1 -> rule_line o <> lit "---") ->
  Forall (fine U ENT o src space punct defs notes raw) cs ->
  serialize_root U PN ENT o B src ends_nl checks (Node NDocument p cs) = Ok s' ->
  hd_error (output s') <> Some 65279%N ->
  (exists bs, reads_document (output s') bs)
  /\ forall bs, reads_document (output s') bs ->
     tells_document U PN ENT o B src space punct defs notes raw cs bs.
Proof.
  intros U PN ENT o B src ends_nl checks space punct defs notes raw p cs s' Rg Fc G R F E M.
  destruct (C44_structure_partial _ _ _ _ _ _ _ _ _ _ _ Fc G R E M) as [X Y]. split; [exact X|]. intros bs H.
  apply document_tells; [exact Rg|exact F|exact (Y bs H)].
Qed.
Print Assumptions C48_says_the_same_partial.

(** The same with no condition on what is written of the inline content but
    [tidy]: in documents whose paragraphs and headings are prose, for a reader
    that has the definitions of their links. *)
Theorem C48_prose_says_the_same_partial : forall U PN ENT o B src ends_nl checks space punct defs notes raw p cs s',
  (forall n m, ENT n = Some m -> n <> [] /\ forallb is_ascii_alnum n = true) ->
  (forall c r, gap c = true -> raw (c :: r) = None) ->
  (forall c, is_ascii_punct c = true -> punct c = true) -> (forall c, gap c = true -> space c = true) ->
  (forall c, punct c = true -> space c = false) ->
  four_columns o ->
  good_document U PN ENT o B src cs ->
  (forall q cs0 cs1, cs = Node NThematicBreak q cs0 :: cs1 -> rule_line o <> lit "---") ->
  Forall (prosaic U ENT o src space punct defs notes raw) cs ->
  (forall n r, In n cs -> refers U ENT o src n r -> defined defs (ref_label r) = Some (ref_url r, ref_title r)) ->
  serialize_root U PN ENT o B src ends_nl checks (Node NDocument p cs) = Ok s' ->
  hd_error (output s') <> Some 65279%N ->
  (exists bs, reads_document (output s') bs)
  /\ forall bs, reads_document (output s') bs ->
     tells_document U PN ENT o B src space punct defs notes raw cs bs.
Proof.
  intros U PN ENT o B src ends_nl checks space punct defs notes raw p cs s' N Rg P1 P2 P3 Fc G R F D E M.
  apply (C48_says_the_same_partial U PN ENT o B src ends_nl checks space punct defs notes raw p cs s' Rg Fc G R); [|exact E|exact M].
  rewrite Forall_forall in *. intros n I. apply prosaic_fine; try assumption; [intros r; apply D; exact I|apply F; exact I].
Qed.
Print Assumptions C48_prose_says_the_same_partial.

(** *** The definitions the reader finds *)
(** The first definition with the label, as [norm] reads labels. *)
Definition found (norm : str -> str) (ENT : str -> option str) (ds : list (str * str * str)) (l : str) : option (str * str) :=
  match find (fun d => seqb (norm (fst (fst d))) (norm l)) ds with
  | Some (_, url, title) => Some (read_text ENT url, read_text ENT title)
  | None => None
  end.
Definition noted (bs : list block) (name : str) : bool :=
  existsb (fun b => match b with Foot n _ => seqb n name | _ => false end) bs.
(** The names of the footnotes of a document. *)
Definition named (cs : list node) (name : str) : bool := existsb (seqb name) (map note_name (note_part cs)).
Lemma label_of_guarded : forall t, guarded SpecRefs.bracket t -> forall l, SpecRefs.spaced l = t -> label_at (l ++ [c_rbr]) = Some (l, []).
Proof.
  assert (Z : forall d c, (if N.eqb d 0 then c_sp else d) = c -> c <> c_sp -> d = c).
  { intros d c Q N. destruct (N.eqb d 0); congruence. }
  intros t G. induction G as [|c t C1 C2 G IH|c t G IH]; intros l Q.
  - destruct l; [reflexivity|discriminate Q].
  - destruct l as [|d l]; [discriminate Q|]. injection Q as Q1 Q2. cbn [app label_at delimited].
    assert (D : ceq d c_bs = false /\ ceq d c_rbr = false /\ ceq d c_lbr = false).
    { unfold SpecRefs.bracket in C2. apply orb_false_iff in C2. destruct C2 as [C2 C3]. apply N.eqb_neq in C2, C3. rewrite !ceq_false.
      destruct (N.eqb d 0) eqn:Z0; [apply N.eqb_eq in Z0; subst d; repeat split; discriminate|]. subst c. auto. }
    destruct D as (D1 & D2 & D3). unfold label_at. cbn [delimited]. rewrite D1, D2. replace (ceq c_lbr d) with false by (symmetry; rewrite ceq_false in *; congruence).
    unfold label_at in IH. rewrite (IH l Q2). reflexivity.
  - destruct l as [|d [|d' l]]; try discriminate Q. injection Q as Q1 Q2 Q3. apply Z in Q1; [|discriminate]. subst d.
    unfold label_at. cbn [app delimited]. rewrite ceq_refl. unfold label_at in IH. rewrite (IH l Q3). reflexivity.
Qed.
Lemma definable_label : forall r, definable r -> is_label (ref_label r) = true.
Proof.
  intros r [G (c & I & N & W) _ _ _ _]. unfold is_label. rewrite (label_of_guarded _ G _ eq_refl). apply negb_true_iff.
  destruct (forallb gap (ref_label r)) eqn:Q; [|reflexivity]. exfalso. rewrite forallb_forall in Q. specialize (Q c I). unfold gap in Q.
  repeat (apply orb_true_iff in Q; destruct Q as [Q|Q]); apply ceq_true in Q; subst c; try discriminate W. apply N. reflexivity.
Qed.
Definition fit (U : Uni) (PN : list (str * str)) (ENT : str -> option str) (o : Options) (B : backend) (src : list str) (n : node) : Prop :=
  (exists w, good U PN ENT o B src w n \/ good_item U PN ENT o B src w n) \/ good_note U PN ENT o B src n
  \/ (exists q ics x evs, n = Node NParagraph q ics /\ inline_content U ENT o src n = Ok (x, evs) /\ definable_uses evs)
  \/ (exists k, good_entry U PN ENT o B src k n)
  \/ exists v q cs, n = Node v q cs /\ (v = NDescriptionTerm \/ v = NDescriptionDetails) /\ Forall (fun c => exists w, good U PN ENT o B src w c) cs.
Lemma good_refers : forall U PN ENT o B src n r, refers U ENT o src n r -> fit U PN ENT o B src n -> definable r.
Proof.
  intros U PN ENT o B src n r R. induction R as [p cs x evs r E I|level p cs x evs r E I|aligns p rows row c x evs r I J E K|v p cs c r V I R IH]; intro G.
  - destruct G as [[w [G|G]]|[G|[(q & ics & x' & evs' & Q & E' & Du)|[[kq G]|(v' & q & cs' & Q & V & _)]]]]; [| | |rewrite E in E'; injection E' as <- <-; apply Du; exact I| |injection Q as <- _ _; destruct V; discriminate];
      inversion G; subst; try (match goal with X : _ \/ _ |- _ => destruct X as [[X _]|[? X]]; discriminate X end).
    match goal with X : inline_content _ _ _ _ _ = Ok (_, ?e), Y : definable_uses ?e |- _ => rewrite E in X; injection X as <- <-; apply Y; exact I end.
  - destruct G as [[w [G|G]]|[G|[(q & ics & x' & evs' & Q & _)|[[kq G]|(v' & q & cs' & Q & V & _)]]]]; [| | |discriminate Q| |injection Q as <- _ _; destruct V; discriminate];
      inversion G; subst; try (match goal with X : _ \/ _ |- _ => destruct X as [[X _]|[? X]]; discriminate X end).
    match goal with X : collect_text _ _ _ _ _ = Ok (_, ?e), Y : definable_uses ?e |- _ => rewrite E in X; injection X as <- <-; apply Y; exact I end.
  - destruct G as [[w [G|G]]|[G|[(q & ics & x' & evs' & Q & _)|[[kq G]|(v' & q & cs' & Q & V & _)]]]]; [| | |discriminate Q| |injection Q as <- _ _; destruct V; discriminate];
      inversion G; subst; try (match goal with X : _ \/ _ |- _ => destruct X as [[X _]|[? X]]; discriminate X end).
    match goal with X : Forall (good_row _ _ _ _ _) _ |- _ => rewrite Forall_forall in X; destruct (X row I) as [_ Y] end.
    rewrite Forall_forall in Y. destruct (Y c J) as (x' & evs' & E' & Du & _). rewrite E in E'. injection E' as <- <-. apply Du. exact K.
  - apply IH. clear IH R. destruct G as [[w [G|G]]|[G|[(q & ics & x' & evs' & Q & _)|[[kq G]|(v' & q & cs' & Q & _ & F)]]]];
      [| | |injection Q as -> _ _; contradiction| |injection Q as <- <- <-; left; rewrite Forall_forall in F; destruct (F c I) as [w ?]; exists w; left; assumption];
      inversion G; subst; try contradiction.
    + left. exists (At d (S k) 0). left. rewrite Forall_forall in *. auto.
    + left. exists (At d (S k) 0). left. rewrite Forall_forall in *. auto.
    + left. exists (At 0 k (S d)). right. rewrite Forall_forall in *. auto.
    + right. right. right. left. rewrite Forall_forall in *. eauto.
    + destruct I as [<-|I]; [left; eauto|]. left. exists (At 0 k d). left. rewrite Forall_forall in *. auto.
    + destruct I as [<-|[]]. right. right. left. eauto 10.
    + left. exists (At 0 0 0). left. destruct I as [<-|I]; [assumption|].
      match goal with X : Forall (fun c => good _ _ _ _ _ _ _ c /\ _) _ |- _ => rewrite Forall_forall in X; apply (X c I) end.
    + right. right. right. right. destruct I as [<-|[<-|[]]]; eexists; eexists; eexists; (split; [reflexivity|]); (split; [auto|]).
      * constructor; [eauto|constructor].
      * constructor; [eauto|]. eapply Forall_impl; [|eassumption]. cbv beta. eauto.
Qed.
Lemma found_resolves : forall norm ENT, (forall l, norm (SpecRefs.spaced l) = norm l) -> forall l ds d, resolves norm l ds d ->
  found norm ENT (map (fun r => (SpecRefs.spaced (ref_label r), ref_url r, ref_title r)) ds) l = Some (read_text ENT (ref_url d), read_text ENT (ref_title d)).
Proof.
  intros norm ENT N l ds d H. unfold found. induction H as [r ds Q|r d ds Q H IH]; cbn [map find fst]; rewrite N.
  - rewrite Q, seqb_refl. reflexivity.
  - apply seqb_false in Q. rewrite Q. exact IH.
Qed.
Lemma found_nothing : forall norm ENT, (forall l, norm (SpecRefs.spaced l) = norm l) -> forall l ds, (forall d, In d ds -> norm (ref_label d) <> norm l) ->
  found norm ENT (map (fun r => (SpecRefs.spaced (ref_label r), ref_url r, ref_title r)) ds) l = None.
Proof.
  intros norm ENT N l ds H. unfold found. induction ds as [|d ds IH]; [reflexivity|]. cbn [map find fst]. rewrite N.
  pose proof (H d (or_introl eq_refl)) as Q. apply seqb_false in Q. rewrite Q. apply IH. intros x I. apply H. right. exact I.
Qed.
Lemma named_noted : forall U PN ENT o B src cs bs name, same_document U PN ENT o B src cs bs -> named cs name = true -> noted bs name = true.
Proof.
  intros U PN ENT o B src cs bs name [_ (ns & Pm & F)] H. unfold named in H. apply existsb_exists in H. destruct H as (x & I & Q). apply seqb_true in Q. subst x.
  apply in_map_iff in I. destruct I as (n & <- & I). apply (Permutation_in n Pm) in I.
  assert (J : exists b, In b (filter is_foot bs) /\ same_note U PN ENT o B src n b).
  { clear - F I. induction F as [|n' b ns bs' S1 F IH]; [destruct I|]. destruct I as [->|I]; [eexists; split; [left; reflexivity|exact S1]|].
    destruct (IH I) as (b' & J & S2). exists b'. split; [right; exact J|exact S2]. }
  destruct J as (b & J & S1). apply filter_In in J. destruct J as [J _]. unfold noted. apply existsb_exists. exists b. split; [exact J|].
  inversion S1; subst. apply seqb_refl.
Qed.
Lemma prosaic_other : forall U ENT o src space punct defs defs' notes notes' raw,
  (forall name, notes name = true -> defined defs (c_caret :: name) = None -> notes' name = true /\ defined defs' (c_caret :: name) = None) ->
  forall n, prosaic U ENT o src space punct defs notes raw n -> prosaic U ENT o src space punct defs' notes' raw n.
Proof.
  intros U ENT o src space punct defs defs' notes notes' raw H.
  apply (node_ind' (fun n => prosaic U ENT o src space punct defs notes raw n -> prosaic U ENT o src space punct defs' notes' raw n)). intros v p cs IH P.
  assert (K : Forall (prosaic U ENT o src space punct defs notes raw) cs -> Forall (prosaic U ENT o src space punct defs' notes' raw) cs).
  { intro F. rewrite Forall_forall in *. auto. }
  destruct v; try exact Logic.I; try (apply prosaic_all; apply K; apply prosaic_all; exact P); cbn [prosaic] in *.
  - destruct P as (P1 & P2 & P3 & P4). repeat (split; [assumption|]). eapply proses_other; eassumption.
  - destruct P as (P0 & P1 & P2 & P3 & P4). repeat (split; [assumption|]). eapply proses_other; eassumption.
  - eapply Forall_impl; [|exact P]. intros row Fr. eapply Forall_impl; [|exact Fr]. intros c (P1 & P2 & P3 & P4). repeat (split; [assumption|]). eapply proses_other; eassumption.
Qed.

(** C48 for a reader that finds its definitions in the document itself: every
    link leads where it led, every footnote reference finds its footnote.
    [refers n r]: a link of [n] is written with the label of [r].
    Partial: as above, where no two links of different targets are written
    with labels that read the same (refuted otherwise, [C25_same_text_refuted]),
    no label reads like a reference to a footnote, and URLs and titles read as
    they are. *)
Theorem C48_links_lead_partial : forall U PN ENT o B src ends_nl checks space punct norm raw p cs s',
  (forall n m, ENT n = Some m -> n <> [] /\ forallb is_ascii_alnum n = true) ->
  (forall c r, gap c = true -> raw (c :: r) = None) ->
  (forall c, is_ascii_punct c = true -> punct c = true) -> (forall c, gap c = true -> space c = true) ->
  (forall c, punct c = true -> space c = false) ->
  (forall l, norm (SpecRefs.spaced l) = norm l) ->
  four_columns o ->
  good_document U PN ENT o B src cs -> forallb no_document cs = true ->
  (forall q cs0 cs1, cs = Node NThematicBreak q cs0 :: cs1 -> rule_line o <> lit "---") ->
  Forall (prosaic U ENT o src space punct (fun _ => None) (named cs) raw) cs ->
  (forall n r n' r', In n cs -> refers U ENT o src n r -> In n' cs -> refers U ENT o src n' r' ->
     norm (ref_label r) = norm (ref_label r') -> ref_url r = ref_url r' /\ ref_title r = ref_title r') ->
  (forall n r name, In n cs -> refers U ENT o src n r -> named cs name = true -> norm (ref_label r) <> norm (c_caret :: name)) ->
  (forall n r, In n cs -> refers U ENT o src n r -> read_text ENT (ref_url r) = ref_url r /\ read_text ENT (ref_title r) = ref_title r) ->
  serialize_root U PN ENT o B src ends_nl checks (Node NDocument p cs) = Ok s' ->
  hd_error (output s') <> Some 65279%N ->
  (exists bs, reads_document (output s') bs)
  /\ forall bs, reads_document (output s') bs ->
     tells_document U PN ENT o B src space punct (found norm ENT (link_definitions bs)) (noted bs) raw cs bs.
Proof.
  intros U PN ENT o B src ends_nl checks space punct norm raw p cs s' N Rg P1 P2 P3 Nm Fc G Nd R F Am Ca Rt E M.
  destruct (C44_structure_partial _ _ _ _ _ _ _ _ _ _ _ Fc G R E M) as [X Y]. split; [exact X|]. intros bs H.
  pose proof (Y bs H) as Sd. rewrite (C44_definitions_partial _ _ _ _ _ _ _ _ _ _ _ _ Fc G E H).
  pose proof (document_uses _ _ _ _ _ _ _ _ _ _ _ G Nd E) as Us.
  assert (Nf : forall n, In n cs -> ~ directs n DisableFile).
  { intros n I Q. pose proof (gt_children _ _ _ _ _ _ _ G) as K. rewrite Forall_forall in K. destruct (K n I) as [Gn|Gn].
    - apply good_sorts in Gn. destruct Gn as (_ & Gn & _). exact (Gn _ Q).
    - destruct Q as (l & q & V & _). inversion Gn; subst; discriminate V. }
  destruct (C25_defined_once_partial _ _ _ _ _ _ _ _ _ _ _ Nd Nf E) as (_ & _ & _ & Du & _).
  assert (Tg : forall r, In r (uses (trace s')) -> exists d, resolves norm (ref_label r) (SpecRefs.defs (trace s')) d /\ ref_url d = ref_url r /\ ref_title d = ref_title r).
  { apply (C25_target_partial U PN ENT o B src ends_nl checks norm p cs s' Nd Nf E). intros r r' I I' Q. apply Us in I, I'.
    destruct I as (n & I & J), I' as (n' & I' & J'). exact (Am n r n' r' I J I' J' Q). }
  refine (proj2 (C48_prose_says_the_same_partial U PN ENT o B src ends_nl checks space punct _ _ raw p cs s' N Rg P1 P2 P3 Fc G R _ _ E M) bs H).
  - eapply Forall_impl; [|exact F]. intros n. apply prosaic_other. intros name Q _. split; [eapply named_noted; eassumption|].
    unfold defined. destruct (is_label _); [|reflexivity]. apply found_nothing; [exact Nm|]. intros d I. apply Du in I. apply Us in I. destruct I as (m & I & J).
    exact (Ca m d name I J Q).
  - intros n r I J. unfold defined. rewrite definable_label.
    + destruct (Tg r) as (d & Rs & Q1 & Q2); [apply Us; eauto|]. rewrite (found_resolves norm ENT Nm _ _ _ Rs). rewrite Q1, Q2. destruct (Rt n r I J) as [-> ->]. reflexivity.
    + apply (good_refers U PN ENT o B src n r J). pose proof (gt_children _ _ _ _ _ _ _ G) as K. rewrite Forall_forall in K. destruct (K n I) as [Gn|Gn]; [left; eauto|right; left; exact Gn].
Qed.
Print Assumptions C48_links_lead_partial.

(** ** Example *)
Definition src48 : list str :=
  [lit "Some *Title*"; lit "============"; []; lit "A paragraph with **bold `code`**,"; lit "and _more_ \*."; [];
   lit " -  item *one*"; []; lit "> [!TIP]"; lit "> Said __so__."; [];
   lit "| A *b* | c     |"; lit "| ----- | ----- |"; lit "| d     | **e** |"; [];
   lit "See [docs](https://d.e), [file](f.md) and <https://x.y>.[^1]"; []; lit "[^1]: With _care_."].
Definition n48 (l : nat) (v : value) (a b : nat) (cs : list node) : node := Node v (mkPos l a l b) cs.
Definition t48 (l : nat) (t : string) (a b : nat) : node := n48 l (NText (lit t)) a b [].
Definition cs48 : list node :=
  [n48 1 (NHeading 1) 1 12 [t48 1 "Some " 1 5; n48 1 NEmph 6 12 [t48 1 "Title" 7 11]];
   Node NParagraph (mkPos 4 1 5 14)
     [t48 4 "A paragraph with " 1 17; n48 4 NStrong 18 32 [t48 4 "bold " 20 24; n48 4 (NCode (lit "code")) 25 30 []]; t48 4 "," 33 33;
      n48 4 NSoftBreak 34 34 []; t48 5 "and " 1 4; n48 5 NEmph 5 10 [t48 5 "more" 6 9]; t48 5 " *." 11 14];
   n48 7 (NList Bullet true) 2 14 [n48 7 NItem 2 14 [n48 7 NParagraph 5 14 [t48 7 "item " 5 9; n48 7 NEmph 10 14 [t48 7 "one" 11 13]]]];
   Node (NAlert Tip) (mkPos 9 1 10 14)
     [n48 10 NParagraph 3 14 [t48 10 "Said " 3 7; n48 10 NStrong 8 13 [t48 10 "so" 10 11]; t48 10 "." 14 14]];
   Node (NTable [ANone; ANone]) (mkPos 12 1 14 17)
     [n48 12 NTableRow 1 17 [n48 12 NTableCell 3 7 [t48 12 "A " 3 4; n48 12 NEmph 5 7 [t48 12 "b" 6 6]]; n48 12 NTableCell 11 11 [t48 12 "c" 11 11]];
      n48 14 NTableRow 1 17 [n48 14 NTableCell 3 3 [t48 14 "d" 3 3]; n48 14 NTableCell 11 15 [n48 14 NStrong 11 15 [t48 14 "e" 13 13]]]];
   n48 16 NParagraph 1 60
     [t48 16 "See " 1 4; n48 16 (NLink (lit "https://d.e") []) 5 23 [t48 16 "docs" 6 9]; t48 16 ", " 24 25;
      n48 16 (NLink (lit "f.md") []) 26 37 [t48 16 "file" 27 30]; t48 16 " and " 38 42;
      n48 16 (NLink (lit "https://x.y") []) 43 55 [t48 16 "https://x.y" 44 54]; t48 16 "." 56 56; n48 16 (NFootnoteReference (lit "1")) 57 60 []];
   n48 18 (NFootnoteDefinition (lit "1")) 1 18 [n48 18 NParagraph 7 18 [t48 18 "With " 7 11; n48 18 NEmph 12 17 [t48 18 "care" 13 16]; t48 18 "." 18 18]]].
(** A reader that does not distinguish case. *)
Definition norm48 (l : str) : str := map ascii_lower (SpecRefs.spaced l).
Lemma norm48_spaced : forall l, norm48 (SpecRefs.spaced l) = norm48 l.
Proof. intro l. unfold norm48. f_equal. unfold SpecRefs.spaced. rewrite map_map. apply map_ext. intro c. destruct (N.eqb c 0) eqn:Q; [reflexivity|rewrite Q; reflexivity]. Qed.
Ltac guarded_ok := vm_compute; repeat (apply g_char; [discriminate|reflexivity|]); apply g_nil.
Ltac definable_ok := split; [guarded_ok|eexists; split; [left; reflexivity|split; [discriminate|reflexivity]]|discriminate
  |split; repeat (apply Forall_cons; [split; discriminate|]); apply Forall_nil
  |split; [discriminate|split; [discriminate|repeat (apply Forall_cons; [repeat split; discriminate|]); apply Forall_nil]]|guarded_ok].
Lemma C48_good : good_document uni_ascii [] (fun _ => None) default_options (Wasm None) src48 cs48.
Proof.
  constructor; [|apart44|repeat constructor; intros []|].
  1: unfold cs48, n48; repeat apply Forall_cons; try apply Forall_nil; [left|left|left|left|left|left|right].
  - head44. split; [repeat constructor; discriminate|]. split; [lia|]. split.
    + intros _. repeat split; try (vm_compute; reflexivity); [vm_compute; lia|]. eexists. eexists. split; reflexivity.
    + intro K. exfalso. apply K. left. split; reflexivity.
  - para44.
  - apply gd_list; [lia|discriminate|discriminate|discriminate|]. apply Forall_cons; [|apply Forall_nil].
    eapply gd_item; [left; split; [reflexivity|unboxed44]|left; reflexivity|exact Logic.I|joined44|para44|constructor].
  - apply gd_alert; [auto|apart44|]. repeat apply Forall_cons; try apply Forall_nil; para44.
  - apply gd_table; [lia|discriminate|discriminate|rows44].
  - para44. intros r I. destruct I as [I|I]; [injection I as <-; definable_ok|destruct I].
  - eapply gd_note; [discriminate|repeat constructor; discriminate|repeat constructor; discriminate|vm_compute; reflexivity|no_uses|apply safe_textb_ok; vm_compute; reflexivity|not_in].
  - intros a n b l E T H M. apply (f_equal (@rev node)) in E. rewrite rev_app_distr in E. cbn [rev] in E. rewrite <- app_assoc in E. cbn [app] in E.
    assert (I : In n cs48) by (rewrite <- (rev_involutive cs48); apply in_rev; rewrite rev_involutive, E; apply in_or_app; right; left; reflexivity).
    repeat (destruct I as [<-|I]; [discriminate H|]). destruct I.
Qed.
Ltac emphasised48 s := split; [cbn; repeat split|split; [in_source s|exact Logic.I]].
Ltac cell48 := split; [eexists; eexists; split; [vm_compute; reflexivity|vm_compute; reflexivity]|split; [|split; [cbn; repeat split|proses_ok]]]; repeat apply Forall_cons; try apply Forall_nil.
Ltac link48 := split; [not_in|]; split; [not_in|]; eexists; split; [vm_compute; reflexivity|]; split; [not_in|]; right; right.
Lemma C48_prosaic : Forall (prosaic uni_ascii (fun _ => None) default_options src48 space46 is_ascii_punct (fun _ => None) (named cs48) raw46) cs48.
Proof.
  unfold cs48, t48, n48. repeat apply Forall_cons; try apply Forall_nil; cbn [prosaic].
  - split; [reflexivity|]. split; [eexists; eexists; vm_compute; reflexivity|]. split; [|split; [cbn; repeat split|proses_ok]].
    repeat apply Forall_cons; try apply Forall_nil; [in_source "Some "%string|emphasised48 "Title"%string].
  - split; [eexists; eexists; split; [vm_compute; reflexivity|split; vm_compute; reflexivity]|]. split; [|split; [cbn; repeat split|proses_ok]].
    repeat apply Forall_cons; try apply Forall_nil; [in_source "A paragraph with "%string| |in_source ","%string|exact Logic.I|
      in_source "and "%string|emphasised48 "more"%string|in_source " \*."%string].
    split; [cbn; repeat split|]. split; [in_source "bold "%string|]. split; [|exact Logic.I]. split; [not_in|].
    exists (lit "`code`"). split; [vm_compute; reflexivity|]. split; [vm_compute; reflexivity|]. not_in.
  - split; [|exact Logic.I]. split; [|exact Logic.I].
    split; [eexists; eexists; split; [vm_compute; reflexivity|split; vm_compute; reflexivity]|]. split; [|split; [cbn; repeat split|proses_ok]].
    repeat apply Forall_cons; try apply Forall_nil; [in_source "item "%string|emphasised48 "one"%string].
  - split; [|exact Logic.I].
    split; [eexists; eexists; split; [vm_compute; reflexivity|split; vm_compute; reflexivity]|]. split; [|split; [cbn; repeat split|proses_ok]].
    repeat apply Forall_cons; try apply Forall_nil; [in_source "Said "%string|emphasised48 "so"%string|in_source "."%string].
  - cell48; [in_source "A "%string|emphasised48 "b"%string].
  - cell48. in_source "c"%string.
  - cell48. in_source "d"%string.
  - cell48. emphasised48 "e"%string.
  - split; [eexists; eexists; split; [vm_compute; reflexivity|split; vm_compute; reflexivity]|].
    split; [|split; [cbn; repeat split|proses_ok]]. repeat apply Forall_cons; try apply Forall_nil;
      [in_source "See "%string| |in_source ", "%string| |in_source " and "%string| |in_source "."%string|split; [reflexivity|not_in]].
    + link48. split; [|split; [|discriminate]].
      * right. exists false, (lit "docs"), (lit "https://d.e)"). split; vm_compute; reflexivity.
      * split; [cbn; repeat split|split; [in_source "docs"%string|exact Logic.I]].
    + link48. split; [|split; [|discriminate]].
      * right. exists false, (lit "file"), (lit "f.md)"). split; vm_compute; reflexivity.
      * split; [cbn; repeat split|split; [in_source "file"%string|exact Logic.I]].
    + link48. split; [left; not_in|]. split; [|reflexivity]. split; [cbn; repeat split|split; [in_source "https://x.y"%string|exact Logic.I]].
  - split; [|exact Logic.I].
    split; [eexists; eexists; split; [vm_compute; reflexivity|split; vm_compute; reflexivity]|]. split; [|split; [cbn; repeat split|proses_ok]].
    repeat apply Forall_cons; try apply Forall_nil; [in_source "With "%string|emphasised48 "care"%string|in_source "."%string].
Qed.
(** The references of the document: one. *)
Lemma C48_refers : forall n r, In n cs48 -> refers uni_ascii (fun _ => None) default_options src48 n r -> r = mkRef (lit "docs") (lit "https://d.e") [].
Proof.
  assert (Z : forall n, In n cs48 -> forall r, refers uni_ascii (fun _ => None) default_options src48 n r -> r = mkRef (lit "docs") (lit "https://d.e") []).
  2: { intros n r I R. exact (Z n I r R). }
  assert (K : forall s' n r, serialize_root uni_ascii [] (fun _ => None) default_options (Wasm None) src48 true true (Node NDocument (mkPos 1 1 1 1) cs48) = Ok s' ->
    In n cs48 -> refers uni_ascii (fun _ => None) default_options src48 n r -> In r (uses (trace s'))).
  { intros s' n r E I R. apply (document_uses _ _ _ _ _ _ _ _ _ _ _ C48_good eq_refl E). eauto. }
  intros n I r R.
  assert (U48 : match serialize_root uni_ascii [] (fun _ => None) default_options (Wasm None) src48 true true (Node NDocument (mkPos 1 1 1 1) cs48) with
    | Ok s' => uses (trace s') = [mkRef (lit "docs") (lit "https://d.e") []] | Panic => False end) by (vm_compute; reflexivity).
  destruct (serialize_root _ _ _ _ _ _ _ _ _) as [s'|] eqn:E; [|destruct U48]. specialize (K s' n r eq_refl I R). rewrite U48 in K. destruct K as [K|[]]. auto.
Qed.
Definition text_48 : str := text_of
  [lit "Some *Title*"; lit "============"; []; lit "A paragraph with **bold `code`**,"; lit "and _more_ \*."; [];
   lit " -  item *one*"; []; lit "> [!TIP]"; lit "> Said __so__."; [];
   lit "| A *b* | c     |"; lit "| ----- | ----- |"; lit "| d     | **e** |"; [];
   lit "See [docs], [file](f.md) and <https://x.y>.[^1]"; []; lit "[^1]: With _care_."; []; lit "[docs]: https://d.e"].
Lemma C48_output : out44 default_options src48 cs48 = Ok text_48.
Proof. vm_compute. reflexivity. Qed.
(** The document is written as it was, but for the external link, and read as
    <<
    <h1>Some <em>Title</em></h1>
    <p>A paragraph with <strong>bold <code>code</code></strong>, and <em>more</em> *.</p>
    <ul><li>item <em>one</em></li></ul>
    <tip><p>Said <strong>so</strong>.</p></tip>
    <table><tr><th>A <em>b</em><th>c<tr><td>d<td><strong>e</strong></table>
    <p>See <a href='https://d.e'>docs</a>, <a href='f.md'>file</a> and <a href='https://x.y'>https://x.y</a>.[^1]</p>
    [^1]: <p>With <em>care</em>.</p>
    >>
    The link finds its definition in the text, the note its footnote. *)
Definition bs48 : list block :=
  [Head 1 (lit "Some *Title*");
   Para [map lit ["A"; "paragraph"; "with"; "**bold"; "`code`**,"; "and"; "_more_"; "\*."]%string];
   SpecBlocks.List (BulletOf c_dash) [(None, [Para [map lit ["item"; "*one*"]%string]])];
   Alert (lit "TIP") [Para [map lit ["Said"; "__so__."]%string]];
   Table [ANone; ANone] [[lit "A *b*"; lit "c"]; [lit "d"; lit "**e**"]];
   Para [map lit ["See"; "[docs],"; "[file](f.md)"; "and"; "<https://x.y>.[^1]"]%string];
   Foot (lit "1") [Para [map lit ["With"; "_care_."]%string]];
   Define (lit "docs") (lit "https://d.e") []].
Lemma C48_read : reads_document text_48 bs48.
Proof. split; [intros (? & ? & Q & [->| ->]); vm_compute in Q; discriminate Q|exists 30; vm_compute; reflexivity]. Qed.
Example C48_example :
  out44 default_options src48 cs48 = Ok text_48 /\ reads_document text_48 bs48
  /\ tells_document uni_ascii [] (fun _ => None) default_options (Wasm None) src48 space46 is_ascii_punct
       (found norm48 (fun _ => None) (link_definitions bs48)) (noted bs48) raw46 cs48 bs48
  /\ flat_map show (read_with [] (said [map lit ["A"; "paragraph"; "with"; "**bold"; "`code`**,"; "and"; "_more_"; "\*."]%string]))
     = lit "A paragraph with <strong>bold <code>code</code></strong>, and <em>more</em> *."
  /\ flat_map show (read_inlines (fun _ => None) space46 is_ascii_punct (found norm48 (fun _ => None) (link_definitions bs48)) (noted bs48) raw46
       (said [map lit ["See"; "[docs],"; "[file](f.md)"; "and"; "<https://x.y>."]%string]))
     = lit "See <a href='https://d.e'>docs</a>, <a href='f.md'>file</a> and <a href='https://x.y'>https://x.y</a>.".
Proof.
  split; [exact C48_output|]. split; [exact C48_read|]. split; [|split; vm_compute; reflexivity].
  destruct (out44_run _ _ _ _ C48_output) as (s' & Es & O). pose proof C48_good as G.
  refine (proj2 (C48_links_lead_partial uni_ascii [] (fun _ => None) default_options (Wasm None) src48 true true
    space46 is_ascii_punct norm48 raw46 _ cs48 s' _ raw46_gap (fun c H => H) space46_gap punct46 norm48_spaced _ G eq_refl _ C48_prosaic _ _ _ Es _) bs48 _).
  - intros n m K. discriminate K.
  - constructor; cbn; lia.
  - intros q cs0 cs1 Q. discriminate Q.
  - intros n r n' r' I R I' R' _. rewrite (C48_refers _ _ I R), (C48_refers _ _ I' R'). split; reflexivity.
  - intros n r name I R _ Q. rewrite (C48_refers _ _ I R) in Q. vm_compute in Q. discriminate Q.
  - intros n r I R. rewrite (C48_refers _ _ I R). split; vm_compute; reflexivity.
  - rewrite O. intro Q. vm_compute in Q. discriminate Q.
  - rewrite O. exact C48_read.
Qed.
(** The definitions of the same document, as C44 has them. *)
Example C44_definitions_example : exists s',
  serialize_root uni_ascii [] (fun _ => None) default_options (Wasm None) src48 true true (Node NDocument (mkPos 1 1 1 1) cs48) = Ok s'
  /\ output s' = text_48 /\ link_definitions bs48 = [(lit "docs", lit "https://d.e", [])]
  /\ map (fun r => (SpecRefs.spaced (ref_label r), ref_url r, ref_title r)) (SpecRefs.defs (trace s')) = [(lit "docs", lit "https://d.e", [])].
Proof.
  destruct (out44_run _ _ _ _ C48_output) as (s' & Es & O). exists s'. split; [exact Es|]. split; [exact O|]. split; [reflexivity|].
  rewrite <- (C44_definitions_partial uni_ascii [] (fun _ => None) default_options (Wasm None) src48 true true (mkPos 1 1 1 1) cs48 s' bs48); [reflexivity| |exact C48_good|exact Es|].
  - constructor; cbn; lia.
  - rewrite O. exact C48_read.
Qed.
