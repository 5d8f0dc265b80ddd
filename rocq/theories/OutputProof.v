(** The output, the trace and the warnings only grow. *)
From Coq Require Import Bool Arith NArith Lia ZifyBool ZifyNat ZifyN String List.
From Verif Require Import Base BaseFacts OptsModel WrapModel CodeModel TableModel HeadingModel AstModel StateModel
  InlineModel WarnModel SerModel StateProof SerFacts SerBuilt.
Import ListNotations.

(** [s'] adds to [s]. *)
Record grows (s s' : st) : Prop := {
  g_output : exists t, output s' = output s ++ t;
  g_trace : exists t, trace s' = trace s ++ t;
  g_warnings : exists t, warnings s' = warnings s ++ t;
  g_calls : exists t, calls s' = calls s ++ t
}.
Lemma grows_refl : forall s, grows s s.
Proof. intro s. split; exists []; rewrite app_nil_r; reflexivity. Qed.
Lemma grows_trans : forall a b c, grows a b -> grows b c -> grows a c.
Proof.
  intros a b c [[t1 E1] [t2 E2] [t3 E3] [t4 E4]] [[u1 F1] [u2 F2] [u3 F3] [u4 F4]].
  split; [exists (t1 ++ u1)|exists (t2 ++ u2)|exists (t3 ++ u3)|exists (t4 ++ u4)]; rewrite app_assoc; congruence.
Qed.

Definition gr (a : act) : Prop := forall s s', a s = Ok s' -> grows s s'.
Lemma gr_upd : forall f, (forall s, grows s (f s)) -> gr (upd f).
Proof. intros f H s s' E. injection E as <-. apply H. Qed.
Lemma gr_nop : gr nop. Proof. intros s s' E. injection E as <-. apply grows_refl. Qed.
Lemma gr_panic : gr panic. Proof. intros s s' E. discriminate. Qed.
Lemma gr_seq : forall a b, gr a -> gr b -> gr (a ;; b).
Proof.
  intros a b Ha Hb s s' E. apply seqa_ok in E. destruct E as (m & E1 & E2). eapply grows_trans; eauto.
Qed.
Lemma gr_get : forall A (f : st -> A) k, (forall x, gr (k x)) -> gr (get f k).
Proof. intros A f k H s s' E. exact (H _ _ _ E). Qed.
Lemma gr_all : forall l, Forall gr l -> gr (all l).
Proof. intros l H. induction H; cbn [all fold_right]; [apply gr_nop|]. apply gr_seq; assumption. Qed.

Ltac grow := split; cbn; solve [eexists; reflexivity | exists []; rewrite app_nil_r; reflexivity].
Lemma gr_emit : forall x, gr (emit x). Proof. intro x. apply gr_upd. intro s. grow. Qed.
Lemma gr_log : forall x, gr (log x). Proof. intro x. apply gr_upd. intro s. grow. Qed.
Lemma gr_ensure : gr ensure_blank_line.
Proof.
  apply gr_get. intro x. destruct (ends_with [c_nl; c_nl] x); [apply gr_nop|].
  destruct (ends_with [c_nl] x); apply gr_emit.
Qed.
Lemma gr_write_reference : forall r, gr (write_reference r).
Proof.
  intro r. unfold write_reference. apply gr_seq; [apply gr_log|]. apply gr_seq; [apply gr_emit|].
  apply gr_upd. intro s. grow.
Qed.
Lemma gr_flush_references : gr flush_references.
Proof.
  apply gr_get. intro p. destruct (is_nil p); [apply gr_nop|]. apply gr_get. intro e. cbv zeta.
  apply gr_seq; [apply gr_upd; intro s; grow|].
  match goal with |- gr (if ?x then _ else _) => destruct x end; [apply gr_nop|].
  apply gr_seq; [apply gr_ensure|]. apply gr_all. apply Forall_map. apply Forall_forall. intros r _.
  apply gr_write_reference.
Qed.
Lemma gr_flush_notes : forall U o checks l, gr (flush_footnotes_before U o checks l).
Proof.
  intros U o checks l. apply gr_get. intro p. destruct (is_nil (f_pending p)); [apply gr_nop|]. cbv zeta.
  apply gr_seq; [apply gr_upd; intro s; grow|].
  match goal with |- gr (if ?x then _ else _) => destruct x end; [apply gr_nop|].
  apply gr_seq; [apply gr_ensure|]. apply gr_all. apply Forall_map. apply Forall_forall. intros r _.
  unfold write_footnote. destruct (footnote_text U o checks r); [|apply gr_panic].
  apply gr_seq; [apply gr_log|]. apply gr_seq; [apply gr_emit|]. apply gr_upd. intro s. grow.
Qed.
Lemma gr_flush_note_refs : forall l, gr (flush_footnote_references_before l).
Proof.
  intros l. apply gr_get. intro p. destruct (is_nil (f_pending_references p)); [apply gr_nop|]. apply gr_get. intro e. cbv zeta.
  apply gr_seq; [apply gr_upd; intro s; grow|].
  match goal with |- gr (if ?x then _ else _) => destruct x end; [apply gr_nop|].
  apply gr_seq; [apply gr_ensure|]. apply gr_all. apply Forall_map. apply Forall_forall. intros r _.
  apply gr_write_reference.
Qed.

Section Grow.
Variable U : Uni.
Variable o : Options.
Variable checks : bool.
Variable top : bool.
Variable ok : effect -> Prop.

Theorem built_gr : forall a, built U o checks top ok a -> gr a.
Proof.
  intros a H. induction H.
  - apply gr_nop.
  - apply gr_panic.
  - apply gr_seq; assumption.
  - apply gr_get; assumption.
  - apply gr_emit.
  - apply gr_log.
  - apply gr_upd. intro s. cbv zeta. destruct (f_collecting (footnotes s)); grow.
  - apply gr_upd. intro s. grow.
  - apply gr_upd. intro s. grow.
  - apply gr_upd. intro s. grow.
  - apply gr_flush_references.
  - apply gr_flush_notes.
  - apply gr_flush_note_refs.
  - apply gr_upd. intro s. cbv zeta. destruct (assoc_str n _); grow.
  - apply gr_upd. intro s. grow.
  - apply gr_upd. intro s. grow.
  - apply gr_upd. intro s. grow.
  - apply gr_upd. intro s. grow.
  - intros s s' E. unfold single_block, get in E. apply seqa_ok in E. destruct E as (m & E1 & E).
    apply seqa_ok in E. destruct E as (m2 & E2 & E). apply seqa_ok in E. destruct E as (m3 & E3 & E4).
    injection E1 as <-. injection E3 as <-. apply IHbuilt in E2. destruct E2 as [_ A2 A3 A4]. apply H1 in E4.
    eapply grows_trans; [|exact E4]. split; cbn in *; try assumption. exists []. rewrite app_nil_r. reflexivity.
  - intros s s' E. rewrite <- H0 in E. exact (IHbuilt _ _ E).
Qed.
End Grow.

Theorem serialize_grows : forall U PN ENT o B src ends_nl checks next n,
  gr (serialize U PN ENT o B src ends_nl checks next n).
Proof. intros. apply (built_gr U o checks true any_effect). apply built_serialize; [apply any0|discriminate|apply any_ok]. Qed.
