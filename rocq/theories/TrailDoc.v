(** No white space at the ends of lines: documents (C58). *)
From Coq Require Import Bool Arith NArith Lia ZifyBool ZifyNat ZifyN String List Permutation.
From Verif Require Import Base BaseFacts OptsModel WrapModel CodeModel TableModel HeadingModel AstModel StateModel
  InlineModel WarnModel SerModel SpecState SpecDoc SpecSafe SpecEnd SpecTrail StateProof SerFacts DocProof DocRun EndProof EndDoc TrailText TrailParts TrailProof.
Import ListNotations.

Section Doc.
Variable U : Uni.
Variable PN : list (str * str).
Variable ENT : str -> option str.
Variable o : Options.
Variable B : backend.
Variable src : list str.
Variable ends_nl : bool.
Variable checks : bool.
Variable hard : bool.
Notation ser := (serialize U PN ENT o B src ends_nl checks).
Notation closed := (closed hard).
Notation fit := (fit hard).
Notation fine := (fine U o checks hard).
Notation does := (does U o checks hard).
Notation nblock := (neat_block U PN ENT o B src hard).
Notation nchild := (neat_child U PN ENT o B src hard).

Record calm (s : st) : Prop := { ca_here : here false (cx s); ca_fine : fine s; ca_out : closed (output s) }.

Lemma section_closed : forall out body b, closed out -> (b = false -> closed body) -> closed (out ++ section_text out body b).
Proof.
  intros out body b O H. unfold section_text. destruct b; [rewrite app_nil_r; exact O|]. apply closed_app; [exact O|]. apply closed_app; [|apply H; reflexivity].
  apply nls_closed. unfold blank_before. destruct (ends_with _ _); [constructor|]. destruct (ends_with _ _); repeat constructor.
Qed.
Lemma flush_calm : forall before s s', calm s -> flush_all U o checks before s = Ok s' -> calm s'.
Proof.
  intros before s s' [C1 [F1 F2 F3 F4] C3] E. unfold flush_all in E. apply seqa_ok in E. destruct E as (m & E1 & E). apply seqa_ok in E. destruct E as (m2 & E2 & E3).
  apply flush_footnotes_ok in E1. destruct E1 as (texts & Ft & O1 & E1).
  destruct (flush_references_eq m) as (m2' & E2' & O2 & G2). rewrite E2' in E2. injection E2 as ->. decompose [and] G2. clear G2.
  destruct (flush_footnote_references_eq before m2) as (m3 & E3' & O3 & G3). rewrite E3' in E3. injection E3 as ->. decompose [and] G3. clear G3. decompose [and] E1. clear E1.
  assert (S1 : closed (output m)).
  { rewrite O1. apply section_closed; [exact C3|]. intros _.
    assert (D : Forall (note_neat U o checks hard) (footnote_order (due_footnotes before s))).
    { eapply Permutation_Forall; [apply flush_order_perm|]. unfold due_footnotes, live_footnotes. apply Forall_map. do 2 apply filter_all. exact F4. }
    apply closed_concat. revert Ft D. generalize (footnote_order (due_footnotes before s)). clear. intros l Ft D.
    induction Ft as [|f t l texts Q Ft IH]; [constructor|]. apply Forall_cons_iff in D. destruct D as [D1 D2]. constructor; [apply (D1 _ Q)|apply IH; exact D2]. }
  assert (S2 : closed (output m2)).
  { rewrite O2. apply section_closed; [exact S1|]. intros _. apply closed_flat. eapply Permutation_Forall; [apply flush_order_perm|].
    unfold live_references. apply filter_all. apply Forall_map. replace (pending_references m) with (pending_references s) by congruence.
    eapply Forall_impl; [|exact F2]. intros kv K. apply reference_fit. exact K. }
  split; [replace (cx s') with (cx s) by congruence; exact C1| |].
  - split; [congruence| | |].
    + replace (pending_references s') with (@nil (str * reference)) by congruence. constructor.
    + replace (f_pending_references (footnotes s')) with (reinsert (kept_footnote_references before m2)) by congruence.
      apply (reinsert_all _ (fun v : reference * nat => full_reference (fst v))). unfold kept_footnote_references, live_footnote_references. do 2 apply filter_all.
      replace (f_pending_references (footnotes m2)) with (f_pending_references (footnotes s)) by congruence. exact F3.
    + replace (f_pending (footnotes s')) with (reinsert (kept_footnotes before s)) by congruence.
      apply (reinsert_all _ (note_neat U o checks hard)). unfold kept_footnotes, live_footnotes. do 2 apply filter_all. exact F4.
  - rewrite O3. apply section_closed; [exact S2|]. intros _. apply closed_flat. unfold due_footnote_references, live_footnote_references.
    apply Forall_map. do 2 apply filter_all. replace (f_pending_references (footnotes m2)) with (f_pending_references (footnotes s)) by congruence.
    eapply Forall_impl; [|exact F3]. intros kv K. apply reference_fit. exact K.
Qed.

(** ** Footnotes *)
Lemma has_blocks_plain : forall n, footnote_has_blocks (node_children n) = false -> plain_note n.
Proof.
  intros n H. unfold footnote_has_blocks in H. apply orb_false_iff in H. destruct H as [H1 H2]. split.
  - intros c J. destruct (node_value c) eqn:V; try exact Logic.I;
      (assert (Z : existsb (fun c => match node_value c with NCodeBlock _ _ | NBlockQuote | NList _ _ | NTable _ => true | _ => false end) (node_children n) = true)
        by (apply existsb_exists; exists c; rewrite V; auto)); congruence.
  - intros a b c x y E X Y. apply Nat.ltb_ge in H2. rewrite E in H2. repeat (rewrite filter_app in H2 || cbn [filter] in H2).
    unfold is_paragraph in H2. rewrite X, Y in H2. repeat (rewrite app_length in H2 || cbn [List.length] in H2). lia.
Qed.
Lemma blocks_calm : forall cs f (done : st -> Prop),
  (forall content m m', fit content -> calm m -> f content m = Ok m' -> done m') ->
  Forall (nblock false) cs -> forall result first s s', fit result /\ first = false \/ result = [] /\ first = true /\ cs <> [] -> calm s ->
  footnote_blocks result first (combine cs (with_next ser cs)) f s = Ok s' -> done s'.
Proof.
  intros cs f done Hf N. induction N as [|c cs Nc N IH]; intros result first s s' R C E; cbn [with_next combine footnote_blocks] in E.
  - destruct R as [[R _]|(_ & _ & R)]; [|congruence]. eapply Hf; [apply trim_end_fit; exact R|exact C|exact E].
  - unfold single_block, get in E. apply seqa_ok in E. destruct E as (m & E1 & E).
    apply seqa_ok in E. destruct E as (m2 & E2 & E). apply seqa_ok in E. destruct E as (m3 & E3 & E4). injection E1 as <-. injection E3 as <-.
    destruct C as [C1 C2 C3].
    assert (F0 : fine (set_output [] s)) by (destruct C2; split; assumption).
    destruct (proj1 (neat_all U PN ENT o B src ends_nl checks hard c (hd_error cs) false) Nc (set_output [] s) m2 C1 F0 E2) as (H2 & F2 & t & O & T).
    cbn [output set_output app] in O.
    assert (T2 : fit (trim_end (output m2))) by (apply trim_end_fit; rewrite O; exact T).
    refine (IH _ _ _ _ _ _ E4); [|split; [exact H2|destruct F2; split; assumption|exact C3]]. left. split; [|reflexivity].
    destruct R as [[R ->]|(-> & -> & _)].
    + apply fit_app; [exact R|]. cbn [negb andb]. apply closed_app; [|apply T2]. match goal with |- closed (if ?b then _ else _) => destruct b end; [apply nls_closed; repeat constructor|apply closed_nil].
    + cbn [negb andb app]. exact T2.
Qed.
Lemma does_collecting : forall q b line, does q q void (set_collecting b line).
Proof.
  intros q b line s s' He F E. injection E as <-. split; [exact He|]. split; [destruct F; split; assumption|]. exists []. rewrite app_nil_r. split; reflexivity.
Qed.
Lemma does_finish : forall q f, note_neat U o checks hard f -> does q q void (set_collecting false 0 ;; add_footnote f).
Proof.
  intros q f N. apply (does_then U o checks hard q q); [apply does_collecting|]. intros s s' He F E. injection E as <-. split; [exact He|].
  split; [|exists []; rewrite app_nil_r; split; reflexivity]. destruct F as [F1 F2 F3 F4]. split; cbn; try assumption. apply insert_all; assumption.
Qed.
Lemma calm_does : forall a s s', does false false void a -> calm s -> a s = Ok s' -> calm s'.
Proof.
  intros a s s' D [C1 C2 C3] E. destruct (D _ _ C1 C2 E) as (H & F & t & O & ->). split; [exact H|exact F|]. rewrite O, app_nil_r. exact C3.
Qed.
Lemma note_calm : forall n next s s', neat_note U PN ENT o B src hard n -> calm s -> ser next n s = Ok s' -> calm s'.
Proof.
  intros n next s s' N C E. destruct N as [name p cs Pl On W|name p cs Pl On Fb]; cbn [serialize] in E; cbv zeta in E; unfold footnote_definition, get in E; cbv zeta in E.
  - assert (Z := plain_has_blocks _ Pl). cbn [node_children] in Z. rewrite Z in E. revert C E. apply calm_does.
    apply (does_then U o checks hard false false); [apply does_collecting|]. apply does_inline. intros x evs Q. destruct (W x evs Q) as [V Us]. split; [exact Us|].
    apply does_finish. intros text. apply words_fit; assumption.
  - assert (Z : footnote_has_blocks cs = true).
    { destruct (footnote_has_blocks cs) eqn:Q; [reflexivity|]. exfalso. apply Pl. apply has_blocks_plain. exact Q. }
    rewrite Z in E. apply seqa_ok in E. destruct E as (m & E1 & E).
    assert (Cm : calm m) by (revert C E1; apply calm_does; apply does_collecting).
    revert E. refine (blocks_calm cs _ calm _ Fb [] true m s' _ Cm).
    + intros content x y Ft Cx Q. revert Cx Q. apply calm_does. apply does_finish. intros text. apply blocks_fit; assumption.
    + right. split; [reflexivity|]. split; [reflexivity|]. intros ->. discriminate Z.
Qed.
Lemma notes_calm : forall cs s s', Forall nchild cs -> calm s -> notes_run U PN ENT o B src ends_nl checks cs s s' -> calm s'.
Proof.
  intros cs s s' G C H. revert G C. induction H as [s|n cs s m s' N E H IH|n cs s s' N H IH]; intros G C; [exact C|..];
    apply Forall_cons_iff in G; destruct G as [Gn Gc].
  - apply IH; [exact Gc|]. destruct N as (name & V). destruct Gn as [n Nb _|n Nn|content p cs0 _].
    + exfalso. destruct Nb; discriminate V.
    + exact (note_calm _ _ _ _ Nn C E).
    + discriminate V.
  - apply IH; assumption.
Qed.

(** ** The document *)
Lemma separator_closed : forall prev n, closed (block_separator prev n).
Proof.
  intros prev n. unfold block_separator. destruct prev as [pn|]; [|apply closed_nil]. destruct (is_front_matter pn); [apply closed_nil|].
  destruct (heading_level n) as [[|[|[|l]]]|]; try apply nl_closed. destruct (is_heading pn); [apply nl_closed|apply nls_closed; repeat constructor].
Qed.
Lemma block_calm : forall prev n next s s', nchild n -> ~ note_definition n -> calm s -> document_block U o src checks prev n (ser next n) s = Ok s' -> calm s'.
Proof.
  intros prev n next s s' G Nn C E. unfold document_block in E. apply seqa_ok in E. destruct E as (m & E1 & E).
  apply seqa_ok in E. destruct E as (m2 & E2 & E). injection E2 as <-. unfold get in E. cbv zeta in E. cbn [skip set_output] in E.
  assert (Cm : calm m).
  { destruct (heading_level n) as [[|[|[|[|l]]]]|]; try (injection E1 as <-; exact C);
      (destruct prev; [exact (flush_calm _ _ _ C E1)|injection E1 as <-; exact C]). }
  rewrite (fi_skip _ _ _ _ _ (ca_fine _ Cm)) in E. destruct Cm as [C1 [F1 F2 F3 F4] C3].
  set (m0 := set_output (output m ++ block_separator prev n) m) in *.
  assert (H0 : here false (cx m0)) by exact C1. assert (F0 : fine m0) by (split; assumption).
  assert (O0 : closed (output m0)) by (apply closed_app; [exact C3|apply separator_closed]). clearbody m0.
  destruct G as [n Nb _|n N|content p cs N].
  - destruct (proj1 (neat_all U PN ENT o B src ends_nl checks hard n next false) Nb m0 s' H0 F0 E) as (H2 & F2' & t & O & T).
    split; [exact H2|exact F2'|]. rewrite O. apply closed_app; [exact O0|apply T].
  - exfalso. apply Nn. destruct N; eexists; reflexivity.
  - cbn [serialize] in E. injection E as <-. split; [exact H0|destruct F0; split; assumption|]. cbn [output set_output]. apply closed_app; [exact O0|].
    apply closed_app; [|apply nls_closed; repeat constructor]. split; [exact N|]. unfold trim. apply trim_end_not.
Qed.
Lemma html_child : forall n l, nchild n -> html_literal n l -> closed l /\ forall d, directs n d -> formats d.
Proof.
  intros n l G V. unfold html_literal in V. destruct G as [n Nb D|n N|content p cs N].
  - split; [|exact D]. inversion Nb; subst; try discriminate V. cbn [node_value] in V. injection V as ->. split; assumption.
  - destruct N; discriminate V.
  - discriminate V.
Qed.
Lemma directive_calm : forall prev n l d s s', nchild n -> directs n d -> html_literal n l -> calm s ->
  directive_act U o checks prev n l d s = Ok s' -> calm s'.
Proof.
  intros prev n l d s s' G D V [C1 [F1 F2 F3 F4] C3] E. destruct (html_child n l G V) as [Cl Fd].
  assert (W : closed ((match prev with Some _ => [c_nl] | None => [] end) ++ l)).
  { apply closed_app; [destruct prev; [apply nl_closed|apply closed_nil]|exact Cl]. }
  destruct (Fd d D) as [->|[(w & ->)|(w & ->)]]; injection E as <-; (split; [exact C1|split; try assumption; reflexivity|]);
    cbn [output set_output set_skip set_nouns]; apply closed_app; assumption.
Qed.
Lemma run_calm : forall tail cs prev s s', Forall nchild cs -> Forall closed (htmls tail) -> calm s ->
  doc_run U PN ENT o B src ends_nl checks tail prev cs s s' -> closed (output s').
Proof.
  intros tail cs prev s s' G Tl C E. revert G C. induction E as [prev s m s' E1 E2|prev n cs s s' N1 E IH|prev n cs s s' Tr E IH|prev n l cs s s' Dr Hl Df
    |prev n d l cs s m s' Dr Nd Hl Da E IH|prev n cs s m s' O Db E IH]; intros G C.
  - apply output_trailing_first in E2. rewrite E2. apply closed_app; [exact (ca_out _ (flush_calm _ _ _ C E1))|]. apply closed_app.
    + destruct (is_nil _); [apply closed_nil|]. apply nls_closed. unfold blank_before. destruct (ends_with _ _); [constructor|]. destruct (ends_with _ _); repeat constructor.
    + apply closed_concat. exact Tl.
  - apply Forall_cons_iff in G. apply IH; [apply G|exact C].
  - apply Forall_cons_iff in G. apply IH; [apply G|exact C].
  - exfalso. apply Forall_cons_iff in G. destruct G as [G _]. destruct (html_child n l G Hl) as [_ Fd].
    destruct (Fd _ Dr) as [Q|[(w & Q)|(w & Q)]]; discriminate Q.
  - apply Forall_cons_iff in G. destruct G as [Gn G]. apply IH; [exact G|]. exact (directive_calm _ _ _ _ _ _ Gn Dr Hl C Da).
  - apply Forall_cons_iff in G. destruct G as [Gn G]. apply IH; [exact G|]. refine (block_calm _ _ _ _ _ Gn _ C Db). apply O.
Qed.
Lemma lines_output : forall n s s', collect_reference_lines n s = Ok s' -> output s' = output s.
Proof.
  induction n as [v p cs IH] using node_ind'. intros s s' E. cbn [collect_reference_lines] in E. apply seqa_ok in E. destruct E as (m & E1 & E2).
  assert (A : output m = output s) by (destruct v; injection E1 as <-; try reflexivity; cbv zeta; destruct (assoc_str _ _); reflexivity).
  rewrite <- A. clear E1 A. revert m E2. induction IH as [|c cs Hc H IH2]; intros m E2; [injection E2 as <-; reflexivity|].
  cbn [map] in E2. rewrite all_cons in E2. apply seqa_ok in E2. destruct E2 as (m2 & E2 & E3). rewrite (IH2 _ E3). exact (Hc _ _ E2).
Qed.
Theorem neat_document : forall p cs s, Forall nchild cs ->
  serialize_root U PN ENT o B src ends_nl checks (Node NDocument p cs) = Ok s -> neat hard (output s) /\ ~ dangles (output s).
Proof.
  intros p cs s G E. apply root_steps in E. destruct E as (ws & m1 & m2 & _ & E1 & E2 & E3).
  assert (C : calm m2).
  { eapply notes_calm; [exact G| |exact E2]. pose proof (lines_keep _ _ _ E1) as (K1 & K2 & K3 & K4 & K5).
    split.
    - rewrite K2. cbn. split; cbn; try exact one_nil. discriminate.
    - split; [exact K1|rewrite K3; constructor|rewrite K4; constructor|rewrite K5; constructor].
    - assert (Z : output m1 = []) by (rewrite (lines_output _ _ _ E1); reflexivity). rewrite Z. apply closed_nil. }
  refine (run_calm _ _ _ _ _ G _ C E3).
  apply Forall_forall. intros l J. unfold htmls in J. apply in_flat_map in J. destruct J as (n & J & V).
  assert (Gn : nchild n).
  { rewrite Forall_forall in G. apply G. rewrite <- (firstn_skipn (find_trailing_html_blocks cs) cs). apply in_app_iff. right. exact J. }
  destruct (node_value n) eqn:Q; try destruct V as [<-|[]]; try destruct V. exact (proj1 (html_child n _ Gn Q)).
Qed.
End Doc.
