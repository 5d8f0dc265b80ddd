(** Documents in parts (C56): flushes and the loop over the children, from
    states that differ in what was written before. *)
From Coq Require Import Bool Arith NArith Lia ZifyBool ZifyNat ZifyN String List.
From Verif Require Import Base BaseFacts OptsModel WrapModel CodeModel TableModel HeadingModel AstModel StateModel
  InlineModel WarnModel SerModel SpecContext SpecRefs SpecParts StateProof SerFacts SerBuilt OutputProof RefProof FrameProof DocProof.
From Verif Require PropsContext.
Import ListNotations.

Lemma ends_with_long : forall (x p s : str), List.length x <= List.length s -> ends_with x (p ++ s) = ends_with x s.
Proof.
  intros x p s L. apply eq_true_iff_eq. rewrite !ends_with_true. split; intros [r X].
  - exists (skipn (List.length p) r). assert (Y : List.length p <= List.length r) by (apply (f_equal (@List.length char)) in X; rewrite !app_length in X; lia).
    apply (f_equal (skipn (List.length p))) in X. rewrite skipn_app, skipn_all, Nat.sub_diag in X. cbn [skipn app] in X. rewrite skipn_app in X.
    replace (List.length p - List.length r) with 0 in X by lia. exact X.
  - exists (p ++ r). rewrite X. apply app_assoc.
Qed.

Section Parts.
Variable U : Uni.
Variable PN : list (str * str).
Variable ENT : str -> option str.
Variable o : Options.
Variable B : backend.
Variable src : list str.
Variable ends_nl : bool.
Variable checks : bool.
Variable E : list str.
Variable FR : footnote_set -> footnote_set -> Prop.
Hypothesis FRc : forall f g, FR f g -> f_collecting f = f_collecting g.
Notation fr := (fr E FR).
Notation sim := (sim E FR).
Notation closed := (closed FR).

(** Enough has been written to know whether there is an empty line. *)
Definition long (p : str) (s : st) : Prop := p = [] \/ 2 <= List.length (output s).
Lemma long_grows : forall p s s', long p s -> grows s s' -> long p s'.
Proof. intros p s s' [L|L] [[t X] _ _ _]; [left; exact L|right; rewrite X, app_length; lia]. Qed.
Definition lsim (a : act) : Prop := forall p s t s', fr p s t -> long p s -> a s = Ok s' -> exists t', a t = Ok t' /\ fr p s' t'.
Lemma lsim_sim : forall a, sim a -> lsim a.
Proof. intros a A p s t s' R _ X. exact (A _ _ _ _ R X). Qed.
Lemma lsim_seq : forall a b, lsim a -> gr a -> lsim b -> lsim (a ;; b).
Proof.
  intros a b A G B0 p s t s' R L X. apply seqa_ok in X. destruct X as (m & X1 & X2). destruct (A _ _ _ _ R L X1) as (n & Y1 & R').
  destruct (B0 _ _ _ _ R' (long_grows _ _ _ L (G _ _ X1)) X2) as (t' & Y2 & R2). exists t'. split; [|exact R2]. apply seqa_ok. exists n. split; assumption.
Qed.
Lemma lsim_ensure : lsim ensure_blank_line.
Proof.
  intros p s t s' R L X. rewrite ensure_blank_line_eq in X. injection X as <-. exists (set_output (output t ++ blank_before (output t)) t).
  split; [apply ensure_blank_line_eq|]. assert (Z : blank_before (output t) = blank_before (output s)).
  { rewrite (fr_output _ _ _ _ _ R). destruct L as [->|L]; [reflexivity|]. unfold blank_before. rewrite !ends_with_long by (cbn [List.length]; lia). reflexivity. }
  rewrite Z. destruct R. split; try assumption. cbn [output set_output]. rewrite fr_output. symmetry. apply app_assoc.
Qed.
Lemma mem_insert : forall l k em, mem l (set_insert k em) = seqb l k || mem l em.
Proof.
  intros l k em. unfold set_insert. destruct (mem k em) eqn:M; [|reflexivity]. destruct (seqb l k) eqn:Q; [|reflexivity]. apply seqb_true in Q. subst l. exact M.
Qed.
Lemma sim_write : forall r, sim (write_reference r).
Proof.
  intro r. unfold write_reference. apply sim_seq; [apply sim_log|]. apply sim_seq; [apply sim_emit|]. apply sim_upd. intros p s t []. split; try assumption.
  intros l N. cbn [emitted_references set_emitted]. rewrite !mem_insert, (fr_emitted l N). reflexivity.
Qed.
Lemma sim_pending : forall x, sim (upd (set_pending x)).
Proof. intro x. apply sim_upd. intros p s t []. split; try assumption. reflexivity. Qed.
Lemma gr_pending : forall x, gr (upd (set_pending x)).
Proof. intro x. apply gr_upd. intro s. split; exists []; rewrite app_nil_r; reflexivity. Qed.
Lemma gr_notes : forall x, gr (upd (set_footnotes x)).
Proof. intro x. apply gr_upd. intro s. split; exists []; rewrite app_nil_r; reflexivity. Qed.
Lemma lsim_written : forall l, lsim (if is_nil l then nop else ensure_blank_line ;; all (map write_reference (flush_order (fun r => extract_numeric_label (ref_label r)) l))).
Proof.
  intro l. destruct (is_nil l); [apply lsim_sim; apply sim_nop|]. apply lsim_seq; [apply lsim_ensure|apply gr_ensure|]. apply lsim_sim. apply sim_all.
  apply Forall_map. apply Forall_forall. intros r _. apply sim_write.
Qed.

(** Labels of this run are not among those defined before. *)
Definition clear (s : st) : Prop := forall r, In r (uses (trace s)) -> mem (ref_label r) E = false.
Lemma clear_grows : forall s s', clear s' -> grows s s' -> clear s.
Proof. intros s s' C [_ [t X] _ _] r I. apply C. rewrite X, uses_app. apply in_or_app. left. exact I. Qed.
Definition csim (a : act) : Prop := forall p s t s', fr p s t -> long p s -> ref_inv s -> clear s' -> a s = Ok s' -> exists t', a t = Ok t' /\ fr p s' t'.
Lemma csim_sim : forall a, sim a -> csim a.
Proof. intros a A p s t s' R _ _ _ X. exact (A _ _ _ _ R X). Qed.
Definition step (a : act) : Prop := built U o checks true any_effect a /\ csim a.
Lemma step_seq : forall a b, step a -> step b -> step (a ;; b).
Proof.
  intros a b [Ba A] [Bb B0]. split; [apply b_seq; assumption|]. intros p s t s' R L I C X. apply seqa_ok in X. destruct X as (m & X1 & X2).
  pose proof (built_gr _ _ _ _ _ _ Ba _ _ X1) as G1. pose proof (built_gr _ _ _ _ _ _ Bb _ _ X2) as G2.
  destruct (A _ _ _ _ R L I (clear_grows _ _ C G2) X1) as (n & Y1 & R').
  destruct (B0 _ _ _ _ R' (long_grows _ _ _ L G1) (built_refs _ _ _ _ _ _ Ba _ _ X1 I) C X2) as (t' & Y2 & R2).
  exists t'. split; [|exact R2]. apply seqa_ok. exists n. split; assumption.
Qed.
Lemma step_sim : forall a, built U o checks true any_effect a -> sim a -> step a.
Proof. intros a Ba A. split; [exact Ba|apply csim_sim; exact A]. Qed.
Lemma step_emit : forall x, step (emit x).
Proof. intro x. apply step_sim; [apply b_emit|apply sim_emit]. Qed.
Lemma step_nop : step nop.
Proof. apply step_sim; [apply b_nop|apply sim_nop]. Qed.
Lemma step_references : step flush_references.
Proof.
  split; [apply b_flush_refs; reflexivity|]. intros p s t s' R L I C X.
  assert (C0 : clear s) by (apply (clear_grows _ _ C); apply gr_flush_references; exact X).
  unfold flush_references, get in *. rewrite (fr_pending _ _ _ _ _ R). destruct (is_nil (pending_references s)); [exact (sim_nop _ _ _ _ _ _ R X)|].
  assert (Z : filter (fun r => negb (mem (ref_label r) (emitted_references t))) (map snd (pending_references s))
    = filter (fun r => negb (mem (ref_label r) (emitted_references s))) (map snd (pending_references s))).
  { apply filter_ext_in. intros r Ir. f_equal. apply (fr_emitted _ _ _ _ _ R). apply C0. apply in_map_iff in Ir. destruct Ir as ([k r'] & Q & Ir). cbn [snd] in Q. subst r'.
    apply (ri_pending _ I k r Ir). }
  cbv zeta in *. rewrite Z. revert X. apply (lsim_seq _ _ (lsim_sim _ (sim_pending [])) (gr_pending []) (lsim_written _)); assumption.
Qed.

(** With no footnotes around. *)
Hypothesis FR0 : forall f g, FR f g <-> f = init_footnotes /\ g = init_footnotes.
Lemma flush_all_init : forall b s, footnotes s = init_footnotes -> flush_all U o checks b s = flush_references s.
Proof.
  intros b s F. unfold flush_all. destruct (flush_references_eq s) as (m & X & _ & _ & _ & _ & Fm & _).
  assert (A : flush_footnotes_before U o checks b s = Ok s) by (unfold flush_footnotes_before, get; rewrite F; reflexivity).
  assert (C : flush_footnote_references_before b m = Ok m) by (unfold flush_footnote_references_before, get; rewrite Fm, F; reflexivity).
  rewrite X. apply seqa_ok. exists s. split; [exact A|]. apply seqa_ok. exists m. split; assumption.
Qed.
Lemma step_flush_all : forall b, step (flush_all U o checks b).
Proof.
  intro b. split; [apply built_flush_all; reflexivity|]. intros p s t s' R L I C X. pose proof (fr_notes _ _ _ _ _ R) as F. apply FR0 in F. destruct F as [F1 F2].
  rewrite flush_all_init in X by exact F1. rewrite flush_all_init by exact F2. exact (proj2 step_references _ _ _ _ R L I C X).
Qed.
Lemma step_trailing : forall cs first, step (output_trailing first cs).
Proof.
  induction cs as [|c cs IH]; intro first; cbn [output_trailing]; [apply step_nop|]. destruct (node_value c); try apply IH.
  apply step_seq; [|apply step_seq; [apply step_emit|apply IH]]. destruct first; [|apply step_nop]. split; [|intros p s t s' R L _ _; apply lsim_ensure; assumption].
  apply built_ensure.
Qed.
Lemma step_skip : forall m, step (upd (set_skip m)).
Proof. intro m. apply step_sim; [apply b_skip; reflexivity|apply sim_skip_set]. Qed.
Lemma step_block : forall prev child a, step a -> step (document_block U o src checks prev child a).
Proof.
  intros prev child a A. unfold document_block. cbv zeta. apply step_seq.
  { destruct (heading_level child) as [[|[|[|[|?]]]]|]; try apply step_nop; destruct prev; try apply step_nop; apply step_flush_all. }
  apply step_seq; [apply step_emit|].
  assert (V : step (match extract_source src (node_pos child) with Panic => panic | Ok (Some source) => emit (source ++ [c_nl]) | Ok None => a end)).
  { destruct (extract_source src (node_pos child)) as [[x|]|]; [apply step_emit|exact A|]. apply step_sim; [apply b_panic|apply sim_panic]. }
  assert (G : forall k, (forall m, step (k m)) -> step (get skip k)).
  { intros k K. split; [apply b_get; intro x; apply (K x)|]. intros p s t s' R L I C X. unfold get in *. rewrite (fr_skip _ _ _ _ _ R). exact (proj2 (K (skip s)) _ _ _ _ R L I C X). }
  apply G. intros [| | |]; try assumption; [apply step_seq; [apply step_skip|exact V]|]. destruct (is_section_heading child); [apply step_seq; [apply step_skip|exact A]|exact V].
Qed.
Lemma step_directive : forall prev child l d, step (directive_act U o checks prev child l d).
Proof.
  intros prev child l d. unfold directive_act. cbv zeta. destruct d;
    repeat first [apply step_flush_all | apply step_seq | apply step_skip | apply step_emit | apply step_nop].
  - match goal with |- step (upd (fun s => set_nouns (proper_nouns s ++ ?x) _ s)) => set (w := x) end.
    apply step_sim; [|apply (sim_nouns_set _ _ (fun x => x ++ w) (fun x => x))].
    apply (b_ext _ _ _ _ _ (upd (fun s => set_nouns (proper_nouns s ++ w) (common_nouns s ++ []) s))); [apply b_nouns; reflexivity|].
    intro s. unfold upd. rewrite app_nil_r. reflexivity.
  - match goal with |- step (upd (fun s => set_nouns _ (common_nouns s ++ ?x) s)) => set (w := x) end.
    apply step_sim; [|apply (sim_nouns_set _ _ (fun x => x) (fun x => x ++ w))].
    apply (b_ext _ _ _ _ _ (upd (fun s => set_nouns (proper_nouns s ++ []) (common_nouns s ++ w) s))); [apply b_nouns; reflexivity|].
    intro s. unfold upd. rewrite app_nil_r. reflexivity.
Qed.
Lemma step_file : forall child l, step (disable_file U o src ends_nl checks child l).
Proof.
  intros child l. unfold disable_file. apply step_seq; [apply step_flush_all|]. apply step_seq; [apply step_emit|]. destruct (extract_source_from_line _ _ _); [apply step_emit|apply step_nop].
Qed.
Lemma step_loop : forall k ts prev fin, Forall (fun ca : node * act => step (snd ca)) k -> step fin -> step (document_loop U o src ends_nl checks ts prev k fin).
Proof.
  induction k as [|[n a] k IH]; intros ts prev fin F Ff; cbn [document_loop]; [exact Ff|]. inversion F as [|? ? Ha Hk]; subst. cbn [snd] in Ha. cbv zeta.
  pose proof (IH (ts - 1) (Some n) fin Hk Ff) as R. destruct ((ts =? 0) && is_html_block n); [exact R|]. destruct (is_footnote_def n); [exact R|].
  pose proof (step_seq _ _ (step_block prev n a Ha) R) as Bk. destruct (node_value n); try exact Bk. destruct (directive_of n) as [[]|]; try exact Bk;
    first [apply step_file | apply step_seq; [apply step_directive|exact R]].
Qed.
Hypothesis steadyB : steady B.
Notation ser := (serialize U PN ENT o B src ends_nl checks).
Lemma step_serialize : forall n next, no_document n = true -> no_notes n -> step (ser next n).
Proof.
  intros n next D NN. apply step_sim; [apply built_serialize; [apply any0|discriminate|apply any_ok]|]. apply sim_serialize; [exact steadyB| | |exact D|left; exact NN].
  - exact FRc.
  - intros f g k v R C. apply FR0 in R. destruct R as [-> ->]. discriminate C.
Qed.
Lemma step_kids : forall cs, Forall (fun c => no_document c = true /\ no_notes c) cs -> Forall (fun ca : node * act => step (snd ca)) (combine cs (with_next ser cs)).
Proof. intros cs F. induction F as [|c cs [D NN] F IH]; [constructor|]. cbn [with_next combine]. constructor; [apply step_serialize; assumption|exact IH]. Qed.
End Parts.

(** ** Two parts *)
Section Whole.
Variable U : Uni.
Variable PN : list (str * str).
Variable ENT : str -> option str.
Variable o : Options.
Variable B : backend.
Variable src : list str.
Variable ends_nl : bool.
Variable checks : bool.
Hypothesis steadyB : steady B.
Notation ser := (serialize U PN ENT o B src ends_nl checks).
Notation loop := (document_loop U o src ends_nl checks).
Notation kids_of cs := (combine cs (with_next ser cs)).
Definition none (f g : footnote_set) : Prop := f = init_footnotes /\ g = init_footnotes.
Lemma none_c : forall f g, none f g -> f_collecting f = f_collecting g.
Proof. intros f g [-> ->]. reflexivity. Qed.
Lemma none_0 : forall f g, none f g <-> f = init_footnotes /\ g = init_footnotes.
Proof. intros. reflexivity. Qed.

(** Where the trailing HTML begins. *)
Definition stops (n : node) : Prop := match node_value n with NHtmlBlock _ | NFootnoteDefinition _ => False | _ => True end.
Lemma trailing_stops : forall x h y seen start, stops h -> trailing_html (x ++ h :: y) seen start = trailing_html (x ++ [h]) seen start
  /\ trailing_html (x ++ [h]) seen start <= Nat.max start (seen + List.length x).
Proof.
  induction x as [|c x IH]; intros h y seen start S0; cbn [app trailing_html].
  - unfold stops in S0. destruct (node_value h); try contradiction; split; try reflexivity; lia.
  - cbn [List.length]. destruct (node_value c); try (split; [reflexivity|lia]).
    + destruct (parse_directive _); [split; [reflexivity|lia]|]. destruct (IH h y (Datatypes.S seen) (Datatypes.S seen) S0) as [X Y]. split; [exact X|lia].
    + destruct (IH h y (Datatypes.S seen) start S0) as [X Y]. split; [exact X|lia].
Qed.
Lemma trailing_parts : forall a h b, stops h ->
  find_trailing_html_blocks (a ++ h :: b) = List.length a + find_trailing_html_blocks (h :: b) /\ 1 <= find_trailing_html_blocks (h :: b).
Proof.
  intros a h b S0. unfold find_trailing_html_blocks. rewrite rev_app_distr. cbn [rev]. rewrite <- app_assoc. cbn [app].
  destruct (trailing_stops (rev b) h (rev a) 0 0 S0) as [-> L]. rewrite rev_length in L. rewrite app_length. cbn [List.length]. lia.
Qed.
Lemma trailing_last : forall a l, stops l -> find_trailing_html_blocks (a ++ [l]) = List.length (a ++ [l]).
Proof.
  intros a l S0. unfold find_trailing_html_blocks. rewrite rev_app_distr. cbn [rev app]. destruct (trailing_stops [] l (rev a) 0 0 S0) as [X L].
  cbn [app List.length] in X, L. rewrite X. lia.
Qed.

(** Nothing is done beforehand. *)
Lemma collect_none : forall n s, no_notes n -> collect_reference_lines n s = Ok s.
Proof.
  induction n as [v p cs IH] using node_ind'. intros s NN. cbn [collect_reference_lines].
  assert (K : all (map collect_reference_lines cs) s = Ok s).
  { assert (F : Forall (fun c => collect_reference_lines c s = Ok s) cs).
    { rewrite Forall_forall in *. intros c Ic. apply (IH c Ic). intros m W. apply NN. eapply within_below; eassumption. }
    clear - F. induction F as [|c cs X F IHF]; [reflexivity|]. cbn [map]. rewrite all_cons. apply seqa_ok. exists s. split; assumption. }
  apply seqa_ok. exists s. split; [|exact K]. pose proof (NN _ (within_here _)) as V. destruct v; try reflexivity. destruct V.
Qed.
Lemma notes_none : forall cs s, Forall no_notes cs -> all (map (fun ca : node * act => if is_footnote_def (fst ca) then snd ca else nop) (kids_of cs)) s = Ok s.
Proof.
  intros cs s F. induction F as [|c cs NN F IH]; [reflexivity|]. cbn [with_next combine map fst snd]. rewrite all_cons. apply seqa_ok. exists s. split; [|exact IH].
  pose proof (NN _ (within_here _)) as V. unfold is_footnote_def. destruct (node_value c); try reflexivity. destruct V.
Qed.
Lemma root_runs : forall p cs s, Forall no_notes cs -> serialize_root U PN ENT o B src ends_nl checks (Node NDocument p cs) = Ok s ->
  exists w, loop (find_trailing_html_blocks cs) None (kids_of cs)
    (flush_all U o checks None ;; output_trailing true (skipn (find_trailing_html_blocks cs) cs)) (set_warnings w init_st) = Ok s.
Proof.
  intros p cs s F X. unfold serialize_root in X. cbn [serialize] in X. unfold document in X. cbv zeta in X.
  assert (M : map fst (kids_of cs) = cs).
  { clear. induction cs as [|c cs IH]; [reflexivity|]. cbn [with_next combine map fst]. f_equal. exact IH. }
  rewrite M in X. destruct (check_undefined checks src (Node NDocument p cs)) as [ws|]; [|discriminate X].
  apply seqa_ok in X. destruct X as (m & X1 & X). injection X1 as <-. apply seqa_ok in X. destruct X as (m & X2 & X).
  rewrite collect_none in X2. 2:{ intros n W. inversion W as [|? ? ? c Ic W']; subst; [exact Logic.I|]. rewrite Forall_forall in F. exact (F c Ic n W'). }
  injection X2 as <-. apply seqa_ok in X. destruct X as (m & X3 & X). rewrite notes_none in X3 by exact F. injection X3 as <-. eexists. exact X.
Qed.

(** The first part, alone and before another. *)
Definition plain (c : node) : Prop := no_document c = true /\ no_notes c /\ well_placed false c = true /\ directive_of c = None.
Record fresh (s : st) : Prop := {
  fs_cx : cx s = init_ctx; fs_skip : skip s = SkipNone; fs_proper : proper_nouns s = []; fs_common : common_nouns s = []; fs_notes : footnotes s = init_footnotes; fs_refs : ref_inv s
}.
Lemma fresh_flush : forall b s s', fresh s -> flush_all U o checks b s = Ok s' -> fresh s' /\ pending_references s' = [].
Proof.
  intros b s s' F X. pose proof (built_refs U o checks true any_effect _ (built_flush_all _ _ _ _ _ b eq_refl) _ _ X (fs_refs _ F)) as R.
  rewrite flush_all_init in X by apply F. destruct (flush_references_eq s) as (m & X' & _ & _ & C & P & N & K & _ & Pn & Cn & _). rewrite X in X'. injection X' as <-.
  destruct F. split; [|exact P]. split; congruence || exact R.
Qed.
Lemma fresh_ser : forall next c s s', plain c -> fresh s -> ser next c s = Ok s' -> (forall f, footnotes s' = f -> f = init_footnotes) -> fresh s'.
Proof.
  intros next c s s' (D & NN & W & _) F X N. pose proof (serialize_inner _ _ _ _ _ _ _ _ _ _ _ _ D X) as In0.
  assert (C : cx s' = cx s) by (eapply PropsContext.C28_context_exact; [exact W|rewrite (fs_cx _ F); reflexivity|exact X]).
  pose proof (built_refs U o checks true any_effect _ (built_serialize U PN ENT o B src ends_nl checks true any_effect any0 _ _ ltac:(discriminate) (any_ok _ _ _)) _ _ X (fs_refs _ F)) as R.
  pose proof (N _ eq_refl) as N0. destruct F, In0. split; congruence || assumption.
Qed.

Lemma ser_next : forall c x y, (match node_value c with NLink _ _ => False | _ => True end) -> ser x c = ser y c.
Proof. intros [v p cs] x y V. cbn [node_value] in V. cbn [serialize]. destruct v; try reflexivity. destruct V. Qed.
Notation fra := (fr [] none).
Lemma clear_nil : forall s, clear [] s.
Proof. intros s r _. reflexivity. Qed.
(** One child of the first part. *)
Lemma block_fresh : forall prev c next s t s', plain c -> fresh s -> fra [] s t -> document_block U o src checks prev c (ser next c) s = Ok s' ->
  fresh s' /\ exists t', document_block U o src checks prev c (ser next c) t = Ok t' /\ fra [] s' t'.
Proof.
  intros prev c next s t s' P F R X.
  assert (St : step U o checks [] none (document_block U o src checks prev c (ser next c))).
  { eapply step_block; [exact ENT|exact none_0|]. eapply step_serialize; [exact none_c|exact none_0|exact steadyB|apply P|apply P]. }
  destruct (proj2 St [] s t s' R (or_introl eq_refl) (fs_refs _ F) (clear_nil _) X) as (t' & Y & R'). split; [|exists t'; split; assumption].
  unfold document_block in X. cbv zeta in X. apply seqa_ok in X. destruct X as (m & X1 & X). apply seqa_ok in X. destruct X as (m2 & X2 & X).
  assert (Fm : fresh m).
  { destruct (heading_level c) as [[|[|[|[|?]]]]|]; try (injection X1 as <-; exact F); destruct prev; try (injection X1 as <-; exact F); eapply fresh_flush; eassumption. }
  assert (Fm2 : fresh m2) by (injection X2 as <-; destruct Fm; split; try assumption; apply (ref_inv_same m); assumption || reflexivity).
  unfold get in X. rewrite (fs_skip _ Fm2) in X. apply (fresh_ser _ _ _ _ P Fm2 X). intros f <-. exact (proj1 (fr_notes _ _ _ _ _ R')).
Qed.

Notation unlinked := (fun l => match node_value l with NLink _ _ => False | _ => True end).
Lemma first_part : forall a prev ts ts' rest fin fin' s t s' z,
  Forall plain a -> List.length a <= ts -> List.length a <= ts' -> (a <> [] -> unlinked (last a z)) ->
  fresh s -> fra [] s t -> loop ts prev (kids_of a) fin s = Ok s' ->
  exists m n, fin m = Ok s' /\ fresh m /\ fra [] m n
    /\ loop ts' prev (kids_of (a ++ rest)) fin' t = loop (ts' - List.length a) (match a with [] => prev | _ => Some (last a z) end) (kids_of rest) fin' n.
Proof.
  induction a as [|c a IH]; intros prev ts ts' rest fin fin' s t s' z P L L' U0 F R X.
  - exists s, t. split; [exact X|]. split; [exact F|]. split; [exact R|]. cbn [app List.length]. rewrite Nat.sub_0_r. reflexivity.
  - inversion P as [|? ? Pc Pa]; subst. cbn [List.length] in L, L'.
    assert (Nx : ser (hd_error (a ++ rest)) c = ser (hd_error a) c).
    { destruct a as [|c' a]; [|reflexivity]. apply ser_next. apply U0. discriminate. }
    assert (Go : forall k q u fin2 s0, List.length (c :: a) <= u -> loop u q ((c, ser (hd_error a) c) :: k) fin2 s0 = (document_block U o src checks q c (ser (hd_error a) c) ;; loop (u - 1) (Some c) k fin2) s0).
    { intros k q u fin2 s0 Lu. cbn [document_loop]. cbv zeta. cbn [List.length] in Lu. replace (u =? 0) with false by (symmetry; apply Nat.eqb_neq; lia). cbn [andb].
      destruct Pc as (_ & NN & _ & Di). pose proof (NN _ (within_here _)) as V. rewrite Di. unfold is_footnote_def. destruct (node_value c); try reflexivity. destruct V. }
    cbn [with_next combine] in X. rewrite Go in X by exact L. apply seqa_ok in X. destruct X as (m1 & X1 & X2).
    destruct (block_fresh _ _ _ _ _ _ Pc F R X1) as (F1 & n1 & Y1 & R1).
    destruct (IH (Some c) (ts - 1) (ts' - 1) rest fin fin' m1 n1 s' z Pa ltac:(lia) ltac:(lia)) as (m & n & A1 & A2 & A3 & A4); [|exact F1|exact R1|exact X2|].
    { destruct a; [intro Q; destruct (Q eq_refl)|intros _; apply U0; discriminate]. }
    exists m, n. split; [exact A1|]. split; [exact A2|]. split; [exact A3|]. cbn [app with_next combine List.length]. rewrite Nx.
    rewrite Go by exact L'. unfold seqa at 1. rewrite Y1. cbn [rbind]. rewrite A4. replace (ts' - 1 - List.length a) with (ts' - Datatypes.S (List.length a)) by lia. destruct a; reflexivity.
Qed.

Lemma heading_long : forall n level next s s', node_value n = NHeading level -> level = 2 \/ level = 3 -> ser next n s = Ok s' -> 2 <= List.length (output s').
Proof.
  intros [v p cs] level next s s' V L X. cbn [node_value] in V. subst v. cbn [serialize] in X. unfold heading in X.
  destruct (collect_text U ENT o src (Node (NHeading level) p cs)) as [[x evs]|]; [|discriminate X]. cbn [inline] in X. apply seqa_ok in X. destruct X as (m & _ & X).
  injection X as <-. cbn [output set_output]. rewrite app_length. unfold heading_output. cbv zeta.
  destruct L as [-> | ->]; cbn [Nat.eqb andb]; [destruct (setext_h2 o)|]; rewrite !app_length; cbn [List.length]; unfold repc; rewrite ?repeat_length; lia.
Qed.
Theorem parts : forall a h b p q r level sA sB s z,
  a <> [] -> Forall plain a -> (forall c, In c (h :: b) -> no_document c = true /\ no_notes c) ->
  stops (last a z) -> unlinked (last a z) -> node_value h = NHeading level -> level = 2 \/ level = 3 ->
  serialize_root U PN ENT o B src ends_nl checks (Node NDocument p a) = Ok sA ->
  serialize_root U PN ENT o B src ends_nl checks (Node NDocument q (h :: b)) = Ok sB ->
  serialize_root U PN ENT o B src ends_nl checks (Node NDocument r (a ++ h :: b)) = Ok s ->
  (forall u d, In u (uses (trace sB)) -> In d (defs (trace sA)) -> ref_label u <> ref_label d) ->
  output s = output sA ++ between (last a z) h ++ output sB.
Proof.
  intros a h b p q r level sA sB s z Na Pa Pb Sa Ua Vh Lv XA XB XC Dj.
  assert (Sh : stops h) by (unfold stops; rewrite Vh; exact Logic.I).
  assert (NNa : Forall no_notes a) by (eapply Forall_impl; [|exact Pa]; intros c Pc; apply Pc).
  assert (NNb : Forall no_notes (h :: b)) by (apply Forall_forall; intros c Ic; apply (Pb c Ic)).
  destruct (root_runs _ _ _ NNa XA) as (wA & RA). destruct (root_runs _ _ _ NNb XB) as (wB & RB).
  destruct (root_runs _ _ _ (proj2 (Forall_app _ _ _) (conj NNa NNb)) XC) as (wC & RC).
  assert (TA : find_trailing_html_blocks a = List.length a).
  { destruct (exists_last Na) as (a' & l & Q). rewrite Q in *. rewrite last_last in Sa. apply trailing_last. exact Sa. }
  destruct (trailing_parts a h b Sh) as [TC T1]. set (tsB := find_trailing_html_blocks (h :: b)) in *. rewrite TA in RA. rewrite TC in RC.
  rewrite skipn_all in RA. cbn [output_trailing] in RA.
  assert (F0 : forall w, fresh (set_warnings w init_st)) by (intro w; split; try reflexivity; apply ref_inv_init).
  assert (R0 : fra [] (set_warnings wA init_st) (set_warnings wC init_st)) by (split; try reflexivity; split; reflexivity).
  destruct (first_part a None (List.length a) (List.length a + tsB) (h :: b) _
    (flush_all U o checks None ;; output_trailing true (skipn (List.length a + tsB) (a ++ h :: b))) _ _ _ z Pa (le_n _) ltac:(lia) (fun _ => Ua) (F0 wA) R0 RA)
    as (mA & mC & E1 & Fm & Rm & E2).
  rewrite RC in E2. symmetry in E2. clear RC RA XA XB XC.
  apply seqa_ok in E1. destruct E1 as (sA' & E1 & Q). injection Q as ->.
  replace (List.length a + tsB - List.length a) with tsB in E2 by lia.
  replace (match a with [] => None | _ => Some (last a z) end) with (Some (last a z)) in E2 by (destruct a; [congruence|reflexivity]).
  assert (Tl : skipn (List.length a + tsB) (a ++ h :: b) = skipn tsB (h :: b)).
  { rewrite skipn_app. replace (List.length a + tsB - List.length a) with tsB by lia. rewrite skipn_all2 by lia. reflexivity. }
  rewrite Tl in E2. clear Tl. set (fin := flush_all U o checks None ;; output_trailing true (skipn tsB (h :: b))) in *.
  destruct (fresh_flush _ _ _ Fm E1) as [FA PA].
  assert (Go : forall pv st0, loop tsB pv (kids_of (h :: b)) fin st0 = (document_block U o src checks pv h (ser (hd_error b) h) ;; loop (tsB - 1) (Some h) (kids_of b) fin) st0).
  { intros pv st0. cbn [with_next combine document_loop]. cbv zeta. unfold is_html_block, is_footnote_def. rewrite Vh. rewrite andb_false_r. reflexivity. }
  rewrite Go in RB, E2. clear Go. apply seqa_ok in RB. destruct RB as (hB & RB1 & RB2). apply seqa_ok in E2. destruct E2 as (hC & C1 & C2).
  (* the heading *)
  set (E := emitted_references sA).
  assert (HL : heading_level h = Some level) by (unfold heading_level; rewrite Vh; reflexivity).
  assert (Xh : ser (hd_error b) h (set_warnings wB init_st) = Ok hB).
  { unfold document_block in RB1. cbv zeta in RB1. apply seqa_ok in RB1. destruct RB1 as (m1 & Y1 & Y). apply seqa_ok in Y. destruct Y as (m2 & Y2 & Y).
    assert (m1 = set_warnings wB init_st) by (destruct (heading_level h) as [[|[|[|[|?]]]]|]; injection Y1 as <-; reflexivity). subst m1.
    cbn [block_separator] in Y2. injection Y2 as <-. exact Y. }
  assert (D1 : exists t, fr E none (output sA ++ between (last a z) h) (set_warnings wB init_st) t /\ ser (hd_error b) h t = Ok hC).
  { unfold document_block in C1. cbv zeta in C1. apply seqa_ok in C1. destruct C1 as (m1 & Y1 & Y). apply seqa_ok in Y. destruct Y as (m2 & Y2 & Y).
    rewrite HL in Y1. assert (Y1' : flush_all U o checks (Some (start_line (node_pos h))) mC = Ok m1) by (destruct Lv as [-> | ->]; exact Y1). clear Y1.
    rewrite flush_all_init in Y1' by apply (fr_notes _ _ _ _ _ Rm). rewrite flush_all_init in E1 by apply Fm.
    destruct (proj2 (step_references U ENT o checks [] none) [] mA mC sA Rm (or_introl eq_refl) (fs_refs _ Fm) (clear_nil _) E1) as (m1' & Z & RmA).
    rewrite Z in Y1'. injection Y1' as ->. injection Y2 as <-. exists (set_output (output m1 ++ block_separator (Some (last a z)) h) m1). split.
    - destruct RmA, FA. cbn [app] in fr_output. split; cbn [output cx pending_references emitted_references footnotes skip proper_nouns common_nouns set_output set_warnings init_st]; try congruence.
      + rewrite app_nil_r, fr_output. f_equal. unfold block_separator, between, is_front_matter, is_heading. rewrite HL, Vh. destruct Lv as [-> | ->]; destruct (node_value (last a z)); reflexivity.
      + intros l Ml. rewrite fr_emitted by reflexivity. exact Ml.
    - unfold get in Y. cbn [skip set_output] in Y. rewrite (fr_skip _ _ _ _ _ RmA), (fs_skip _ FA) in Y. exact Y. }
  destruct D1 as (t & Rt & Xt). destruct (Pb h (or_introl eq_refl)) as [Dh Nh].
  assert (Rh : fr E none (output sA ++ between (last a z) h) hB hC).
  { destruct (sim_serialize U PN ENT o B src ends_nl checks steadyB E none none_c) with (n := h) (next := hd_error b) (p := output sA ++ between (last a z) h) (s := set_warnings wB init_st) (t := t) (s' := hB) as (t' & Q1 & Q2); auto.
    - intros f g k v [-> ->] C. discriminate C.
    - rewrite Xt in Q1. injection Q1 as ->. exact Q2. }
  assert (Lh : 2 <= List.length (output hB)) by (eapply heading_long; eassumption).
  assert (Ih : ref_inv hB).
  { refine (built_refs U o checks true any_effect _ _ _ _ Xh (ref_inv_init wB)). apply built_serialize; [apply any0|discriminate|apply any_ok]. }
  assert (Cl : clear E sB).
  { intros u Iu. destruct (mem (ref_label u) E) eqn:M; [|reflexivity]. exfalso. unfold mem in M. apply existsb_exists in M. destruct M as (k & Ik & Q). apply seqb_true in Q. subst k.
    apply (ri_emitted _ (fs_refs _ FA)) in Ik. apply in_map_iff in Ik. destruct Ik as (d & Qd & Id). apply (Dj u d Iu Id). symmetry. exact Qd. }
  assert (St : step U o checks E none (loop (tsB - 1) (Some h) (kids_of b) fin)).
  { eapply step_loop; [exact ENT|exact none_0| |].
    - eapply step_kids; [exact none_c|exact none_0|exact steadyB|]. apply Forall_forall. intros c Ic. apply Pb. right. exact Ic.
    - unfold fin. apply (step_seq U ENT o checks E none); [eapply step_flush_all; [exact ENT|exact none_0]|apply step_trailing; exact ENT]. }
  destruct (proj2 St _ _ _ _ Rh (or_intror Lh) Ih Cl RB2) as (s2 & Z & R2). rewrite C2 in Z. injection Z as <-.
  rewrite (fr_output _ _ _ _ _ R2). symmetry. apply app_assoc.
Qed.
End Whole.
