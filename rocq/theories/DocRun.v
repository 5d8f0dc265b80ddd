(** The steps of a document, and where its warnings come from. *)
From Coq Require Import Bool Arith NArith Lia ZifyBool ZifyNat ZifyN String List.
From Verif Require Import Base BaseFacts OptsModel WrapModel CodeModel TableModel HeadingModel AstModel StateModel
  InlineModel WarnModel SerModel SpecState SpecContext SpecDoc StateProof PropsState SerFacts PropsOrder SerBuilt OutputProof DocProof PropsDoc.
Import ListNotations.

Section Run.
Variable U : Uni.
Variable PN : list (str * str).
Variable ENT : str -> option str.
Variable o : Options.
Variable B : backend.
Variable src : list str.
Variable ends_nl : bool.
Variable checks : bool.
Notation ser := (serialize U PN ENT o B src ends_nl checks).

(** [tail]: the children from the first trailing HTML block on. *)
Inductive doc_run (tail : list node) : option node -> list node -> st -> st -> Prop :=
| dr_end : forall prev s m s',
    flush_all U o checks None s = Ok m -> output_trailing true tail m = Ok s' -> doc_run tail prev [] s s'
| dr_note : forall prev n cs s s',
    note_definition n -> doc_run tail (Some n) cs s s' -> doc_run tail prev (n :: cs) s s'
| dr_trailing : forall prev n cs s s',
    trails n cs -> doc_run tail (Some n) cs s s' -> doc_run tail prev (n :: cs) s s'
| dr_file : forall prev n l cs s s',
    directs n DisableFile -> html_literal n l -> disable_file U o src ends_nl checks n l s = Ok s' ->
    doc_run tail prev (n :: cs) s s'
| dr_directive : forall prev n d l cs s m s',
    directs n d -> d <> DisableFile -> html_literal n l -> directive_act U o checks prev n l d s = Ok m ->
    doc_run tail (Some n) cs m s' -> doc_run tail prev (n :: cs) s s'
| dr_block : forall prev n cs s m s',
    ordinary n cs -> document_block U o src checks prev n (ser (hd_error cs) n) s = Ok m ->
    doc_run tail (Some n) cs m s' -> doc_run tail prev (n :: cs) s s'.

Lemma loop_steps : forall cs done prev s s',
  let ts := find_trailing_html_blocks (done ++ cs) in
  let tail := skipn ts (done ++ cs) in
  document_loop U o src ends_nl checks (ts - List.length done) prev (combine cs (with_next ser cs))
    (flush_all U o checks None ;; output_trailing true tail) s = Ok s' ->
  doc_run tail prev cs s s'.
Proof.
  induction cs as [|n cs IH]; intros done prev s s' ts tail E.
  - cbn [combine document_loop with_next] in E. apply seqa_ok in E. destruct E as (m & E1 & E2). eapply dr_end; eassumption.
  - cbn [with_next combine document_loop] in E.
    assert (Next : forall prev' s1, document_loop U o src ends_nl checks (ts - List.length done - 1) prev' (combine cs (with_next ser cs))
       (flush_all U o checks None ;; output_trailing true tail) s1 = Ok s' -> doc_run tail prev' cs s1 s').
    { intros prev' s1 R. specialize (IH (done ++ [n]) prev' s1 s'). cbv zeta in IH.
      rewrite <- app_assoc in IH. cbn [app] in IH. fold ts in IH. fold tail in IH. apply IH.
      rewrite app_length. cbn [List.length]. replace (ts - (List.length done + 1)) with (ts - List.length done - 1) by lia. exact R. }
    destruct ((ts - List.length done =? 0) && is_html_block n) eqn:Def.
    + apply andb_true_iff in Def. destruct Def as [T H]. apply Nat.eqb_eq in T.
      apply dr_trailing; [apply (trails_iff done n cs H); exact T|]. apply Next. exact E.
    + assert (NT : ~ trails n cs).
      { intro TR. assert (H : is_html_block n = true) by (destruct TR as [[l L] _]; unfold is_html_block; rewrite L; reflexivity).
        apply (trails_iff done n cs H) in TR. fold ts in TR. rewrite H, TR in Def. discriminate. }
      destruct (is_footnote_def n) eqn:FD.
      * apply dr_note; [apply note_iff; exact FD|]. apply Next. exact E.
      * assert (ND : ~ note_definition n) by (intro Q; apply note_iff in Q; congruence).
        destruct (directive_of n) as [d|] eqn:Q.
        -- assert (DD : directs n d) by (apply directs_iff; exact Q).
           destruct (node_value n) eqn:V; try (unfold directive_of in Q; rewrite V in Q; discriminate Q).
           destruct d;
             try (apply seqa_ok in E; destruct E as (m & E1 & E2); eapply dr_directive;
                  [exact DD|discriminate|exact V|exact E1|apply Next; exact E2]).
           eapply dr_file; [exact DD|exact V|exact E].
        -- assert (Ord : ordinary n cs).
           { split; [exact ND|]. split; [exact NT|]. intros d C. apply directs_iff in C. congruence. }
           assert (E' : (document_block U o src checks prev n (ser (hd_error cs) n) ;;
             document_loop U o src ends_nl checks (ts - List.length done - 1) (Some n) (combine cs (with_next ser cs))
               (flush_all U o checks None ;; output_trailing true tail)) s = Ok s').
           { destruct (node_value n); exact E. }
           apply seqa_ok in E'. destruct E' as (m & E1 & E2). eapply dr_block; [exact Ord|exact E1|apply Next; exact E2].
Qed.

(** The footnote definitions come first. *)
Inductive notes_run : list node -> st -> st -> Prop :=
| nr_end : forall s, notes_run [] s s
| nr_note : forall n cs s m s', note_definition n -> ser (hd_error cs) n s = Ok m -> notes_run cs m s' -> notes_run (n :: cs) s s'
| nr_other : forall n cs s s', ~ note_definition n -> notes_run cs s s' -> notes_run (n :: cs) s s'.

Lemma notes_steps : forall cs s s',
  all (map (fun ca : node * act => if is_footnote_def (fst ca) then snd ca else nop) (combine cs (with_next ser cs))) s = Ok s' ->
  notes_run cs s s'.
Proof.
  induction cs as [|n cs IH]; intros s s' E; [injection E as <-; constructor|].
  cbn [with_next combine map] in E. rewrite all_cons in E. apply seqa_ok in E. destruct E as (m & E1 & E2). cbn [fst snd] in E1.
  destruct (is_footnote_def n) eqn:F.
  - eapply nr_note; [apply note_iff; exact F|exact E1|apply IH; exact E2].
  - injection E1 as <-. apply nr_other; [intro Q; apply note_iff in Q; congruence|apply IH; exact E2].
Qed.

(** A run of the whole document. *)
Theorem root_steps : forall p cs s',
  serialize_root U PN ENT o B src ends_nl checks (Node NDocument p cs) = Ok s' ->
  exists ws m1 m2, check_undefined checks src (Node NDocument p cs) = Ok ws
    /\ collect_reference_lines (Node NDocument p cs) (set_warnings ws init_st) = Ok m1
    /\ notes_run cs m1 m2
    /\ doc_run (skipn (find_trailing_html_blocks cs) cs) None cs m2 s'.
Proof.
  intros p cs s' E. unfold serialize_root in E. cbn [serialize] in E. cbv zeta in E. unfold document in E. cbv zeta in E.
  destruct (check_undefined checks src (Node NDocument p cs)) as [ws|]; [|discriminate].
  apply seqa_ok in E. destruct E as (m & E1 & E). injection E1 as <-.
  apply seqa_ok in E. destruct E as (m1 & E1 & E). apply seqa_ok in E. destruct E as (m2 & E2 & E3).
  exists ws, m1, m2. split; [reflexivity|]. split; [exact E1|]. split; [apply notes_steps; exact E2|].
  assert (MF : map fst (combine cs (with_next ser cs)) = cs).
  { clear. induction cs as [|c cs IH]; [reflexivity|]. cbn [with_next combine map fst]. rewrite IH. reflexivity. }
  rewrite MF in E3. apply (loop_steps cs []). cbn [List.length app]. rewrite Nat.sub_0_r. exact E3.
Qed.

(** ** Warnings *)
Lemma built_warnings : forall top (okw : warning -> Prop) a, built U o checks top (only_warnings okw) a ->
  forall s s', a s = Ok s' -> exists ws, warnings s' = warnings s ++ ws /\ Forall okw ws.
Proof.
  intros top okw a H.
  assert (Z : forall s s' : st, warnings s' = warnings s -> exists ws, warnings s' = warnings s ++ ws /\ Forall okw ws).
  { intros s s' Q. exists []. rewrite app_nil_r. auto. }
  induction H; intros s s' E.
  - injection E as <-. apply Z. reflexivity.
  - discriminate.
  - apply seqa_ok in E. destruct E as (m & E1 & E2). destruct (IHbuilt1 _ _ E1) as (w1 & Q1 & F1).
    destruct (IHbuilt2 _ _ E2) as (w2 & Q2 & F2). exists (w1 ++ w2). split; [rewrite Q2, Q1, app_assoc; reflexivity|apply Forall_app; auto].
  - unfold get in E. eauto.
  - injection E as <-. apply Z. reflexivity.
  - injection E as <-. apply Z. reflexivity.
  - injection E as <-. apply Z. cbv zeta. destruct (f_collecting (footnotes s)); reflexivity.
  - injection E as <-. apply Z. reflexivity.
  - injection E as <-. exists (f s). split; [reflexivity|apply H].
  - injection E as <-. exists w. split; [reflexivity|exact H].
  - apply Z. destruct (flush_references_eq s) as (z & Ez & F). rewrite Ez in E. injection E as <-. decompose [and] F. assumption.
  - apply Z. apply flush_footnotes_ok in E. destruct E as (texts & F). decompose [and] F. assumption.
  - apply Z. destruct (flush_footnote_references_eq l s) as (z & Ez & F). rewrite Ez in E. injection E as <-. decompose [and] F. assumption.
  - injection E as <-. apply Z. cbv zeta. destruct (assoc_str n _); reflexivity.
  - injection E as <-. apply Z. reflexivity.
  - injection E as <-. apply Z. reflexivity.
  - injection E as <-. apply Z. reflexivity.
  - injection E as <-. apply Z. reflexivity.
  - unfold single_block, get in E. apply seqa_ok in E. destruct E as (m & E1 & E).
    apply seqa_ok in E. destruct E as (m2 & E2 & E). apply seqa_ok in E. destruct E as (m3 & E3 & E4).
    injection E1 as <-. injection E3 as <-. destruct (IHbuilt _ _ E2) as (w1 & Q1 & F1). destruct (H1 _ _ _ E4) as (w2 & Q2 & F2).
    cbn in Q1, Q2. exists (w1 ++ w2). split; [rewrite Q2, Q1, app_assoc; reflexivity|apply Forall_app; auto].
  - rewrite <- H0 in E. eauto.
Qed.
End Run.

(** ** The sources of warnings *)
(** A warning about a row of a table below [n]. *)
Definition table_warning (src : list str) (n : node) (w : warning) : Prop :=
  exists aligns p rows, within (Node (NTable aligns) p rows) n
    /\ In w (check_table_source_columns src (start_line p) (end_line p) (List.length aligns) (start_line p)).

Lemma within_no_document : forall m n, within m n -> no_document n = true -> no_document m = true.
Proof.
  intros m n H. induction H as [|v p cs c I W IH]; [auto|]. cbn [no_document]. intro D. apply andb_true_iff in D. destruct D as [_ D].
  rewrite forallb_forall in D. exact (IH (D c I)).
Qed.

Section Warnings.
Variable U : Uni.
Variable PN : list (str * str).
Variable ENT : str -> option str.
Variable o : Options.
Variable B : backend.
Variable src : list str.
Variable ends_nl : bool.
Variable checks : bool.
Hypothesis src_lines : src <> [] /\ Forall (fun l => ~ In c_nl l) src.
Notation ser := (serialize U PN ENT o B src ends_nl checks).

Lemma serialize_warnings : forall n next s s', no_document n = true -> ser next n s = Ok s' ->
  exists ws, warnings s' = warnings s ++ ws /\ Forall (fun w => warn_line w = 0 \/ table_warning src n w) ws.
Proof.
  intros n next s s' D E. revert E. apply (built_warnings U o checks false). apply built_serialize; [intros w E0; left; exact E0|auto|apply warns_effects].
  intros m ws W Q. apply Forall_forall. intros w I. right. pose proof (within_no_document _ _ W D) as Dm.
  destruct m as [v p cs]. destruct v; cbn [own_warnings] in Q; try (injection Q as <-; destruct I); try discriminate Dm.
  all: injection Q as <-; do 3 eexists; split; [exact W|].
  all: first [left; reflexivity | exact I | cbn; auto].
Qed.
End Warnings.
