(** References: what is used is defined, once. *)
From Coq Require Import Bool Arith NArith Lia ZifyBool ZifyNat ZifyN String List Permutation.
From Verif Require Import Base BaseFacts OptsModel WrapModel CodeModel TableModel HeadingModel AstModel StateModel
  InlineModel WarnModel SerModel SpecState SpecContext SpecDoc SpecRefs StateProof PropsState SerFacts PropsOrder SerBuilt OutputProof DocProof PropsDoc DocRun.
Import ListNotations.

Lemma in_uses : forall r t, In r (uses t) <-> In (Use r) t.
Proof.
  intros r t. unfold uses. rewrite in_flat_map. split.
  - intros (e & I & J). destruct e; cbn in J; try contradiction; destruct J as [->|[]]; exact I.
  - intro I. exists (Use r). split; [exact I|left; reflexivity].
Qed.
Lemma in_defs : forall r t, In r (defs t) <-> In (Def r) t.
Proof.
  intros r t. unfold defs. rewrite in_flat_map. split.
  - intros (e & I & J). destruct e; cbn in J; try contradiction; destruct J as [->|[]]; exact I.
  - intro I. exists (Def r). split; [exact I|left; reflexivity].
Qed.
Lemma uses_app : forall a b, uses (a ++ b) = uses a ++ uses b.
Proof. intros a b. unfold uses. apply flat_map_app. Qed.
Lemma defs_app : forall a b, defs (a ++ b) = defs a ++ defs b.
Proof. intros a b. unfold defs. apply flat_map_app. Qed.
Lemma defs_defs : forall l, defs (map Def l) = l.
Proof. induction l as [|r l IH]; [reflexivity|]. cbn. f_equal. exact IH. Qed.
Lemma uses_defs : forall l, uses (map Def l) = [].
Proof. induction l as [|r l IH]; [reflexivity|]. exact IH. Qed.
Lemma defs_notes : forall l, defs (map Footnote l) = [].
Proof. induction l as [|r l IH]; [reflexivity|]. exact IH. Qed.
Lemma uses_notes : forall l, uses (map Footnote l) = [].
Proof. induction l as [|r l IH]; [reflexivity|]. exact IH. Qed.

Lemma flush_order_perm : forall A (num : A -> option N) l, Permutation l (flush_order num l).
Proof.
  intros A num l. apply (section_order_perm A num (fun x n => num x = Some n)); [tauto|].
  apply flush_order_spec. tauto.
Qed.
Lemma reference_order_perm : forall l, Permutation l (reference_order l).
Proof. intro l. apply flush_order_perm. Qed.

(** ** The invariant *)
Record ref_inv (s : st) : Prop := {
  ri_emitted : forall k, In k (emitted_references s) <-> In k (map ref_label (defs (trace s)));
  ri_once : NoDup (map ref_label (defs (trace s)));
  ri_keys : NoDup (map fst (pending_references s));
  ri_pending : forall k r, In (k, r) (pending_references s) -> k = ref_label r /\ In r (uses (trace s));
  ri_fkeys : NoDup (map fst (f_pending_references (footnotes s)));
  ri_fpending : forall k r l, In (k, (r, l)) (f_pending_references (footnotes s)) -> k = ref_label r /\ In r (uses (trace s));
  ri_covered : forall r, In r (uses (trace s)) -> In (ref_label r) (emitted_references s)
    \/ In (ref_label r) (map fst (pending_references s))
    \/ In (ref_label r) (map fst (f_pending_references (footnotes s)));
  ri_used : forall r, In r (defs (trace s)) -> In r (uses (trace s))
}.

(** [s'] is [s] in all that the invariant is about. *)
Lemma ref_inv_same : forall s s', ref_inv s ->
  emitted_references s' = emitted_references s -> defs (trace s') = defs (trace s) -> uses (trace s') = uses (trace s) ->
  pending_references s' = pending_references s ->
  f_pending_references (footnotes s') = f_pending_references (footnotes s) -> ref_inv s'.
Proof. intros s s' [] E1 E2 E3 E4 E5. split; rewrite ?E1, ?E2, ?E3, ?E4, ?E5; assumption. Qed.

Lemma nodup_map_filter : forall A B (f : A -> B) p l, NoDup (map f l) -> NoDup (map f (filter p l)).
Proof.
  intros A B f p l. induction l as [|x l IH]; intro N; [constructor|]. cbn [map] in N. inversion N; subst.
  cbn [filter]. destruct (p x); [|auto]. cbn [map]. constructor; [|auto].
  intro I. match goal with H : ~ In _ _ |- _ => apply H end. apply in_map_iff in I. destruct I as (y & E & I). apply filter_In in I.
  apply in_map_iff. exists y. tauto.
Qed.

Lemma ref_inv_use : forall r s s', add_reference r s = Ok s' -> ref_inv s -> ref_inv s'.
Proof.
  intros r s s' E []. injection E as <-. cbv zeta.
  destruct (f_collecting (footnotes s)); split; cbn [emitted_references trace pending_references footnotes set_footnotes set_trace set_pending f_pending_references];
    rewrite ?defs_app, ?uses_app; cbn [defs uses flat_map app]; rewrite ?app_nil_r; auto.
  - intros k x I. destruct (ri_pending0 k x I) as [A B]. split; [exact A|]. apply in_or_app. auto.
  - apply imap_insert_nodup. exact ri_fkeys0.
  - intros k x l I. apply imap_insert_in in I. destruct I as [Q|I].
    + injection Q as -> -> ->. split; [reflexivity|]. apply in_or_app. right. left. reflexivity.
    + destruct (ri_fpending0 k x l I) as [A B]. split; [exact A|]. apply in_or_app. auto.
  - intros x I. apply in_app_or in I. rewrite imap_insert_keys. destruct I as [I|[<-|[]]].
    + destruct (ri_covered0 x I) as [J|[J|J]]; auto. right. right.
      destruct (mem (ref_label r) _); [exact J|]. apply in_or_app. auto.
    + right. right. destruct (mem (ref_label r) _) eqn:M; [apply mem_true; exact M|]. apply in_or_app. right. left. reflexivity.
  - intros x I. apply in_or_app. left. auto.
  - apply imap_insert_nodup. exact ri_keys0.
  - intros k x I. apply imap_insert_in in I. destruct I as [Q|I].
    + injection Q as -> ->. split; [reflexivity|]. apply in_or_app. right. left. reflexivity.
    + destruct (ri_pending0 k x I) as [A B]. split; [exact A|]. apply in_or_app. auto.
  - intros k x l I. destruct (ri_fpending0 k x l I) as [A B]. split; [exact A|]. apply in_or_app. auto.
  - intros x I. apply in_app_or in I. rewrite imap_insert_keys. destruct I as [I|[<-|[]]].
    + destruct (ri_covered0 x I) as [J|[J|J]]; auto. right. left.
      destruct (mem (ref_label r) _); [exact J|]. apply in_or_app. auto.
    + right. left. destruct (mem (ref_label r) _) eqn:M; [apply mem_true; exact M|]. apply in_or_app. right. left. reflexivity.
  - intros x I. apply in_or_app. left. auto.
Qed.

(** Writing definitions that are pending and not yet written. *)
Lemma nodup_app : forall A (a b : list A), NoDup a -> NoDup b -> (forall x, In x a -> In x b -> False) -> NoDup (a ++ b).
Proof.
  intros A a b NA NB D. induction a as [|x a IH]; [exact NB|]. inversion NA; subst. cbn [app]. constructor.
  - intro I. apply in_app_or in I. destruct I as [I|I]; [contradiction|]. exact (D x (or_introl eq_refl) I).
  - apply IH; [assumption|]. intros y I J. exact (D y (or_intror I) J).
Qed.

Lemma live_references_nodup : forall s, ref_inv s -> NoDup (map ref_label (live_references s)).
Proof.
  intros s []. unfold live_references. apply nodup_map_filter. rewrite map_map.
  rewrite (map_ext_in _ (@fst str reference)); [exact ri_keys0|]. intros [k r] I. cbn [fst snd]. symmetry. apply (ri_pending0 k r I).
Qed.
Lemma live_references_in : forall s r, In r (live_references s) ->
  ~ In (ref_label r) (emitted_references s) /\ exists k, In (k, r) (pending_references s).
Proof.
  intros s r I. unfold live_references in I. apply filter_In in I. destruct I as [I N]. apply negb_true_iff in N. apply mem_false in N.
  split; [exact N|]. apply in_map_iff in I. destruct I as ([k x] & Q & I). cbn [snd] in Q. subst x. exists k. exact I.
Qed.
Lemma ref_inv_flush : forall s s', flush_references s = Ok s' -> ref_inv s -> ref_inv s'.
Proof.
  intros s s' E R. destruct (flush_references_eq s) as (z & Ez & _ & T & _ & P & F & _ & _ & _ & _ & _ & M).
  rewrite Ez in E. injection E as <-.
  pose proof (reference_order_perm (live_references s)) as Perm. set (l := reference_order (live_references s)) in *.
  assert (NL : NoDup (map ref_label l)).
  { apply (Permutation_NoDup (l := map ref_label (live_references s))); [apply Permutation_map; exact Perm|apply live_references_nodup; exact R]. }
  assert (IL : forall r, In r l -> ~ In (ref_label r) (emitted_references s) /\ exists k, In (k, r) (pending_references s)).
  { intros r I. apply live_references_in. apply (Permutation_in r (Permutation_sym Perm)). exact I. }
  destruct R. split; rewrite ?T, ?P, ?F; rewrite ?defs_app, ?uses_app, ?defs_defs, ?uses_defs, ?app_nil_r, ?map_app; auto.
  - intro k. rewrite M, ri_emitted0, in_app_iff. tauto.
  - apply nodup_app; [exact ri_once0|exact NL|]. intros k I J. apply in_map_iff in J. destruct J as (r & <- & J).
    apply ri_emitted0 in I. destruct (IL r J) as [X _]. exact (X I).
  - constructor.
  - intros k r [].
  - intros r I. destruct (ri_covered0 r I) as [J|[J|J]]; auto.
    + left. apply M. auto.
    + left. apply M. apply in_map_iff in J. destruct J as ([k x] & Q & J). cbn [fst] in Q. subst k.
      destruct (in_dec (list_eq_dec N.eq_dec) (ref_label r) (emitted_references s)) as [Y|Y]; [auto|right].
      destruct (ri_pending0 _ _ J) as [A _]. rewrite A. apply in_map. unfold l.
      apply (Permutation_in x Perm). unfold live_references. apply filter_In. split.
      * apply in_map_iff. exists (ref_label r, x). auto.
      * apply negb_true_iff. apply mem_false. rewrite <- A. exact Y.
  - intros r I. apply in_app_or in I. destruct I as [I|I]; [auto|]. destruct (IL r I) as [_ [k J]]. apply (ri_pending0 k r J).
Qed.

Lemma kept_nodup : forall b s, ref_inv s -> NoDup (map fst (kept_footnote_references b s)).
Proof. intros b s []. unfold kept_footnote_references, live_footnote_references. apply nodup_map_filter. apply nodup_map_filter. exact ri_fkeys0. Qed.
Lemma ref_inv_flush_notes : forall b s s', flush_footnote_references_before b s = Ok s' -> ref_inv s -> ref_inv s'.
Proof.
  intros b s s' E R. destruct (flush_footnote_references_eq b s) as (z & Ez & _ & T & _ & P & _ & _ & _ & _ & _ & F & _ & _ & _ & _ & _ & M).
  rewrite Ez in E. injection E as <-. rewrite (reinsert_id _ _ (kept_nodup b s R)) in F.
  assert (KN := kept_nodup b s R).
  set (l := due_footnote_references b s) in *.
  assert (IL : forall r, In r l -> ~ In (ref_label r) (emitted_references s) /\ exists n, In (ref_label r, (r, n)) (f_pending_references (footnotes s))).
  { intros r I. unfold l, due_footnote_references in I. apply in_map_iff in I. destruct I as ((k & (x & n)) & Q & I). cbn [fst snd] in Q. subst x.
    apply filter_In in I. destruct I as [I _]. unfold live_footnote_references in I. apply filter_In in I. destruct I as [I N].
    apply negb_true_iff in N. apply mem_false in N. destruct R. destruct (ri_fpending0 _ _ _ I) as [A _]. cbn [fst] in N. subst k. eauto. }
  assert (NL : NoDup (map ref_label l)).
  { unfold l, due_footnote_references. rewrite map_map. rewrite (map_ext_in _ fst).
    - unfold live_footnote_references. apply nodup_map_filter. apply nodup_map_filter. apply R.
    - intros (k & (x & n)) I. apply filter_In in I. destruct I as [I _]. unfold live_footnote_references in I. apply filter_In in I. destruct I as [I _].
      symmetry. exact (proj1 (ri_fpending _ R _ _ _ I)). }
  destruct R. split; rewrite ?T, ?P, ?F; rewrite ?defs_app, ?uses_app, ?defs_defs, ?uses_defs, ?app_nil_r, ?map_app; auto.
  - intro k. rewrite M, ri_emitted0, in_app_iff. tauto.
  - apply nodup_app; [exact ri_once0|exact NL|]. intros k I J. apply in_map_iff in J. destruct J as (r & <- & J).
    apply ri_emitted0 in I. destruct (IL r J) as [X _]. exact (X I).
  - intros k r n I. unfold kept_footnote_references in I. apply filter_In in I. destruct I as [I _]. unfold live_footnote_references in I. apply filter_In in I.
    apply (ri_fpending0 _ _ _ (proj1 I)).
  - intros r I. destruct (ri_covered0 r I) as [J|[J|J]]; auto.
    + left. apply M. auto.
    + destruct (in_dec (list_eq_dec N.eq_dec) (ref_label r) (emitted_references s)) as [Y|Y]; [left; apply M; auto|].
      apply in_map_iff in J. destruct J as ((k & (x & n)) & Q & J). cbn [fst] in Q. subst k.
      assert (A := proj1 (ri_fpending0 _ _ _ J)).
      assert (L : In (ref_label r, (x, n)) (live_footnote_references s)).
      { unfold live_footnote_references. apply filter_In. split; [exact J|]. apply negb_true_iff. apply mem_false. exact Y. }
      destruct (due b n) eqn:D.
      * left. apply M. right. rewrite A. apply in_map. unfold l, due_footnote_references. apply in_map_iff. exists (ref_label r, (x, n)).
        split; [reflexivity|]. apply filter_In. split; [exact L|exact D].
      * right. right. apply in_map_iff. exists (ref_label r, (x, n)). split; [reflexivity|]. unfold kept_footnote_references. apply filter_In.
        split; [exact L|]. cbn [snd]. rewrite D. reflexivity.
  - intros r I. apply in_app_or in I. destruct I as [I|I]; [auto|]. destruct (IL r I) as [_ [n J]]. apply (ri_fpending0 _ _ _ J).
Qed.

Section Built.
Variable U : Uni.
Variable o : Options.
Variable checks : bool.
Variable top : bool.
Variable ok : effect -> Prop.
Theorem built_refs : forall a, built U o checks top ok a -> forall s s', a s = Ok s' -> ref_inv s -> ref_inv s'.
Proof.
  intros a H. induction H; intros s s' E R; try discriminate.
  - injection E as <-. apply (ref_inv_same s); auto.
  - apply seqa_ok in E. destruct E as (m & E1 & E2). eauto.
  - unfold get in E. eauto.
  - injection E as <-. apply (ref_inv_same s); auto.
  - injection E as <-. apply (ref_inv_same s); cbn [emitted_references trace pending_references footnotes set_trace]; try reflexivity; [exact R|..];
      rewrite ?defs_app, ?uses_app; cbn; apply app_nil_r.
  - exact (ref_inv_use _ _ _ E R).
  - injection E as <-. apply (ref_inv_same s); auto.
  - injection E as <-. apply (ref_inv_same s); auto.
  - injection E as <-. apply (ref_inv_same s); auto.
  - exact (ref_inv_flush _ _ E R).
  - apply flush_footnotes_ok in E. destruct E as (texts & _ & _ & T & _ & P & Em & _ & _ & _ & _ & F & _).
    apply (ref_inv_same s s' R); rewrite ?T, ?defs_app, ?uses_app, ?defs_notes, ?uses_notes, ?app_nil_r; auto.
  - exact (ref_inv_flush_notes _ _ _ E R).
  - injection E as <-. cbv zeta. destruct (assoc_str n _); [exact R|]. apply (ref_inv_same s); auto.
  - injection E as <-. apply (ref_inv_same s); auto.
  - injection E as <-. apply (ref_inv_same s); auto.
  - injection E as <-. apply (ref_inv_same s); auto.
  - injection E as <-. apply (ref_inv_same s); auto.
  - unfold single_block, get in E. apply seqa_ok in E. destruct E as (m & E1 & E).
    apply seqa_ok in E. destruct E as (m2 & E2 & E). apply seqa_ok in E. destruct E as (m3 & E3 & E4).
    injection E1 as <-. injection E3 as <-. apply (H1 _ _ _ E4). apply (ref_inv_same m2); auto.
    apply (IHbuilt _ _ E2). apply (ref_inv_same s); auto.
  - rewrite <- H0 in E. eauto.
Qed.
End Built.

Lemma ref_inv_init : forall ws, ref_inv (set_warnings ws init_st).
Proof. intro ws. split; cbn; try tauto; try constructor; intros; contradiction. Qed.

Theorem serialize_refs : forall U PN ENT o B src ends_nl checks n s',
  serialize_root U PN ENT o B src ends_nl checks n = Ok s' -> ref_inv s'.
Proof.
  intros U PN ENT o B src ends_nl checks n s' E. unfold serialize_root in E.
  assert (Bt : built U o checks true any_effect (serialize U PN ENT o B src ends_nl checks None n)) by (apply built_serialize; [apply any0|discriminate|apply any_ok]).
  apply (built_refs _ _ _ _ _ _ Bt _ _ E). exact (ref_inv_init []).
Qed.

(** ** Where the definitions are *)
Lemma blank_before_ends : forall out, exists y, out ++ blank_before out = y ++ [c_nl].
Proof.
  intro out. unfold blank_before. destruct (ends_with [c_nl; c_nl] out) eqn:E.
  - apply ends_with_true in E. destruct E as [r ->]. exists (r ++ [c_nl]). rewrite app_nil_r, <- app_assoc. reflexivity.
  - destruct (ends_with [c_nl] out) eqn:E2.
    + exists out. reflexivity.
    + exists (out ++ [c_nl]). rewrite <- app_assoc. reflexivity.
Qed.
Lemma laid_defs : forall rs text ds, laid (text ++ [c_nl]) ds -> laid (text ++ [c_nl] ++ flat_map reference_text rs) (ds ++ rs).
Proof.
  induction rs as [|r rs IH]; intros text ds L; cbn [flat_map].
  - rewrite !app_nil_r. exact L.
  - assert (X : exists y, reference_text r = y ++ [c_nl]).
    { unfold reference_text. rewrite !app_assoc. eexists. reflexivity. }
    destruct X as [y X]. specialize (IH (text ++ [c_nl] ++ y) (ds ++ [r])).
    rewrite <- !app_assoc in IH. cbn [app] in IH. rewrite X. rewrite <- !app_assoc. cbn [app].
    apply IH. replace (text ++ c_nl :: y ++ [c_nl]) with (text ++ [c_nl] ++ definition_line r).
    + apply laid_def. exact L.
    + rewrite <- reference_text_line, X. reflexivity.
Qed.
Lemma laid_section : forall rs out ds, laid out ds ->
  laid (out ++ section_text out (flat_map reference_text rs) (is_nil rs)) (ds ++ rs).
Proof.
  intros rs out ds L. destruct rs as [|r rs]; cbn [is_nil section_text].
  - rewrite !app_nil_r. exact L.
  - rewrite app_assoc. destruct (blank_before_ends out) as [y E]. rewrite E, <- app_assoc.
    apply laid_defs. rewrite <- E. apply laid_text. exact L.
Qed.

Definition laid_out (s : st) : Prop := laid (output s) (defs (trace s)).
(** Actions that keep it. *)
Definition lays (a : act) : Prop := forall s s', a s = Ok s' -> laid_out s -> laid_out s'.
Lemma lays_seq : forall a b, lays a -> lays b -> lays (a ;; b).
Proof. intros a b A B s s' E L. apply seqa_ok in E. destruct E as (m & E1 & E2). exact (B _ _ E2 (A _ _ E1 L)). Qed.
Lemma lays_emit : forall x, lays (emit x).
Proof. intros x s s' E L. injection E as <-. apply laid_text. exact L. Qed.
Lemma lays_nop : lays nop.
Proof. intros s s' E L. injection E as <-. exact L. Qed.
Lemma lays_get : forall A (f : st -> A) k, (forall x, lays (k x)) -> lays (get f k).
Proof. intros A f k H s s' E. exact (H _ _ _ E). Qed.
Lemma lays_same : forall f, (forall s, output (f s) = output s /\ trace (f s) = trace s) -> lays (upd f).
Proof. intros f H s s' E L. injection E as <-. destruct (H s) as [A B]. unfold laid_out. rewrite A, B. exact L. Qed.
Lemma lays_flush_references : lays flush_references.
Proof.
  intros s s' E L. destruct (flush_references_eq s) as (z & Ez & O & T & _). rewrite Ez in E. injection E as <-.
  unfold laid_out. rewrite O, T, defs_app, defs_defs.
  replace (is_nil (live_references s)) with (is_nil (reference_order (live_references s))); [apply laid_section; exact L|].
  pose proof (Permutation_length (reference_order_perm (live_references s))) as Q.
  destruct (live_references s), (reference_order _); try reflexivity; discriminate.
Qed.
Lemma lays_flush_note_refs : forall b, lays (flush_footnote_references_before b).
Proof.
  intros b s s' E L. destruct (flush_footnote_references_eq b s) as (z & Ez & O & T & _). rewrite Ez in E. injection E as <-.
  unfold laid_out. rewrite O, T, defs_app, defs_defs. apply laid_section. exact L.
Qed.
Lemma lays_flush_notes : forall U o checks b, lays (flush_footnotes_before U o checks b).
Proof.
  intros U o checks b s s' E L. apply flush_footnotes_ok in E. destruct E as (texts & _ & O & T & _).
  unfold laid_out. rewrite O, T, defs_app, defs_notes, app_nil_r. apply laid_text. exact L.
Qed.
Lemma lays_flush_all : forall U o checks b, lays (flush_all U o checks b).
Proof. intros. repeat apply lays_seq; [apply lays_flush_notes|apply lays_flush_references|apply lays_flush_note_refs]. Qed.
Lemma lays_ensure : lays ensure_blank_line.
Proof. intros s s' E L. rewrite ensure_blank_line_eq in E. injection E as <-. apply laid_text. exact L. Qed.
Lemma lays_trailing : forall cs first, lays (output_trailing first cs).
Proof.
  induction cs as [|c cs IH]; intro first; cbn [output_trailing]; [apply lays_nop|].
  destruct (node_value c); try apply IH. apply lays_seq; [destruct first; [apply lays_ensure|apply lays_nop]|].
  apply lays_seq; [apply lays_emit|apply IH].
Qed.
Lemma lays_serialize : forall U PN ENT o B src ends_nl checks next n, no_document n = true ->
  lays (serialize U PN ENT o B src ends_nl checks next n).
Proof.
  intros U PN ENT o B src ends_nl checks next n D s s' E L.
  pose proof (serialize_inner _ _ _ _ _ _ _ _ _ _ _ _ D E) as [_ _ _ _ _ (t & T & F)].
  pose proof (serialize_grows _ _ _ _ _ _ _ _ _ _ _ _ E) as [[x G] _ _ _].
  unfold laid_out. rewrite G, T, defs_app. replace (defs t) with (@nil reference); [rewrite app_nil_r; apply laid_text; exact L|].
  clear - F. induction F as [|e t H F IH]; [reflexivity|]. destruct e; try contradiction; exact IH.
Qed.

Section Doc.
Variable U : Uni.
Variable PN : list (str * str).
Variable ENT : str -> option str.
Variable o : Options.
Variable B : backend.
Variable src : list str.
Variable ends_nl : bool.
Variable checks : bool.
Notation ser := (serialize U PN ENT o B src ends_nl checks).

Lemma lays_heading : forall (prev : option node) n,
  lays (match heading_level n, prev with
        | Some 2, Some _ | Some 3, Some _ => flush_all U o checks (Some (start_line (node_pos n)))
        | _, _ => nop
        end).
Proof.
  intros prev n. destruct (heading_level n) as [[|[|[|[|?]]]]|]; try apply lays_nop; destruct prev; try apply lays_nop; apply lays_flush_all.
Qed.
Lemma lays_block : forall prev n a, lays a -> lays (document_block U o src checks prev n a).
Proof.
  intros prev n a A. unfold document_block. cbv zeta. apply lays_seq; [apply lays_heading|]. apply lays_seq; [apply lays_emit|].
  assert (V : lays (match extract_source src (node_pos n) with
                    | Panic => panic | Ok (Some source) => emit (source ++ [c_nl]) | Ok None => a end)).
  { destruct (extract_source src (node_pos n)) as [[x|]|]; [apply lays_emit|exact A|intros s s' E; discriminate]. }
  apply lays_get. intros [| | |]; try assumption; try (destruct (is_section_heading n); try assumption);
    (apply lays_seq; [apply lays_same; intro; split; reflexivity|]; assumption).
Qed.
Lemma lays_directive : forall prev n l d, lays (directive_act U o checks prev n l d).
Proof.
  intros prev n l d. unfold directive_act. cbv zeta. destruct d; try apply lays_nop;
    repeat first [apply lays_flush_all|apply lays_seq|apply lays_emit|apply lays_same; intro; split; reflexivity].
Qed.
Lemma lays_file : forall n l, lays (disable_file U o src ends_nl checks n l).
Proof.
  intros n l. unfold disable_file. apply lays_seq; [apply lays_flush_all|]. apply lays_seq; [apply lays_emit|].
  destruct (extract_source_from_line _ _ _); [apply lays_emit|apply lays_nop].
Qed.
Lemma doc_run_lays : forall tail prev cs s s', doc_run U PN ENT o B src ends_nl checks tail prev cs s s' ->
  forallb no_document cs = true -> laid_out s -> laid_out s'.
Proof.
  intros tail prev cs s s' R. induction R; intros D L; try (cbn [forallb] in D; apply andb_true_iff in D; destruct D as [D1 D2]); auto.
  - eapply lays_trailing; [eassumption|]. eapply lays_flush_all; eassumption.
  - eapply lays_file; eassumption.
  - apply IHR; [exact D2|]. eapply lays_directive; eassumption.
  - apply IHR; [exact D2|]. eapply lays_block; [apply lays_serialize; exact D1|eassumption|exact L].
Qed.
Lemma notes_run_lays : forall cs s s', notes_run U PN ENT o B src ends_nl checks cs s s' ->
  forallb no_document cs = true -> laid_out s -> laid_out s'.
Proof.
  intros cs s s' R. induction R; intros D L; try (cbn [forallb] in D; apply andb_true_iff in D; destruct D as [D1 D2]); auto.
  apply IHR; [exact D2|]. eapply lays_serialize; eassumption.
Qed.
(** Without disable-file, nothing is pending at the end. *)
Lemma flush_all_none : forall s s', ref_inv s -> flush_all U o checks None s = Ok s' ->
  pending_references s' = [] /\ f_pending_references (footnotes s') = [].
Proof.
  intros s s' R E. apply seqa_ok in E. destruct E as (m & E1 & E). apply seqa_ok in E. destruct E as (m2 & E2 & E3).
  destruct (flush_references_eq m) as (z & Ez & _ & _ & _ & P & _). rewrite Ez in E2. injection E2 as <-.
  destruct (flush_footnote_references_eq None z) as (y & Ey & _ & _ & _ & P2 & _ & _ & _ & _ & _ & F & _). rewrite Ey in E3. injection E3 as <-.
  split; [rewrite P2; exact P|]. rewrite F. replace (kept_footnote_references None z) with (@nil (str * (reference * nat))); [reflexivity|].
  unfold kept_footnote_references. cbn [due negb]. induction (live_footnote_references z); [reflexivity|exact IHl].
Qed.
Lemma trailing_same : forall cs first s s', output_trailing first cs s = Ok s' ->
  pending_references s' = pending_references s /\ footnotes s' = footnotes s /\ trace s' = trace s.
Proof.
  induction cs as [|c cs IH]; intros first s s' E; cbn [output_trailing] in E; [injection E as <-; auto|].
  destruct (node_value c); try exact (IH _ _ _ E).
  apply seqa_ok in E. destruct E as (m & E1 & E). apply seqa_ok in E. destruct E as (m2 & E2 & E3). injection E2 as <-.
  destruct (IH _ _ _ E3) as (A & B0 & C). cbn in A, B0, C. destruct first.
  - rewrite ensure_blank_line_eq in E1. injection E1 as <-. cbn in A, B0, C. auto.
  - injection E1 as <-. auto.
Qed.
Lemma doc_run_end : forall tail prev cs s s', doc_run U PN ENT o B src ends_nl checks tail prev cs s s' ->
  (forall n, In n cs -> ~ directs n DisableFile) ->
  exists m m2, flush_all U o checks None m = Ok m2 /\ output_trailing true tail m2 = Ok s' /\
    (ref_inv s -> ref_inv m).
Proof.
  intros tail prev cs s s' R. induction R; intro ND.
  - eauto.
  - apply IHR. intros x I. apply ND. right. exact I.
  - apply IHR. intros x I. apply ND. right. exact I.
  - exfalso. apply (ND n); [left; reflexivity|assumption].
  - destruct IHR as (a & b & E1 & E2 & E3); [intros x I; apply ND; right; exact I|]. exists a, b. split; [exact E1|]. split; [exact E2|].
    intro I. apply E3. assert (Bt : built U o checks true any_effect (directive_act U o checks prev n l d)) by (apply built_directive; reflexivity).
    exact (built_refs _ _ _ _ _ _ Bt _ _ H2 I).
  - destruct IHR as (a & b & E1 & E2 & E3); [intros x I; apply ND; right; exact I|]. exists a, b. split; [exact E1|]. split; [exact E2|].
    intro I. apply E3. assert (Bt : built U o checks true any_effect (document_block U o src checks prev n (ser (hd_error cs) n))).
    { apply built_document_block. reflexivity. apply built_serialize; [apply any0|discriminate|apply any_ok]. }
    exact (built_refs _ _ _ _ _ _ Bt _ _ H0 I).
Qed.
End Doc.
