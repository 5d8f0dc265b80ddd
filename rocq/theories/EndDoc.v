(** Documents end in exactly one newline (C40). *)
From Coq Require Import Bool Arith NArith Lia ZifyBool ZifyNat ZifyN String List Permutation.
From Verif Require Import Base BaseFacts OptsModel WrapModel CodeModel TableModel HeadingModel AstModel StateModel
  InlineModel WarnModel SerModel SpecState SpecContext SpecDoc SpecSafe SpecEnd StateProof SerFacts SerBuilt ContextProof OutputProof DocProof DocRun
  EndProof.
Import ListNotations.

(** ** What is put off until later *)
Definition open_url (r : reference) : Prop := ~ exists x, ref_url r = x ++ [c_nl].
Definition blackened (x : str) : Prop := ends (fun c => is_ws c = false) x.
(** A footnote with blocks says something. *)
Definition note_fine (f : footnote) : Prop := fn_has_blocks f = true -> blackened (fn_content f).
Record clean (s : st) : Prop := {
  cl_refs : Forall (fun kv => open_url (snd kv)) (pending_references s);
  cl_note_refs : Forall (fun kv => open_url (fst (snd kv))) (f_pending_references (footnotes s));
  cl_notes : Forall (fun kv => note_fine (snd kv)) (f_pending (footnotes s))
}.
Definition clean_effect (e : effect) : Prop :=
  match e with EUse r => open_url r | ENote f => note_fine f | _ => True end.

Lemma insert_all : forall A (P : A -> Prop) k v m, P v -> Forall (fun kv : str * A => P (snd kv)) m -> Forall (fun kv => P (snd kv)) (imap_insert k v m).
Proof.
  intros A P k v m V M. apply Forall_forall. intros x I. apply imap_insert_in in I. destruct I as [->|I]; [exact V|].
  rewrite Forall_forall in M. exact (M x I).
Qed.
Lemma reinsert_all : forall A (P : A -> Prop) l, Forall (fun kv : str * A => P (snd kv)) l -> Forall (fun kv => P (snd kv)) (reinsert l).
Proof.
  intros A P l H. unfold reinsert.
  assert (G : forall m, Forall (fun kv => P (snd kv)) m -> Forall (fun kv => P (snd kv)) (fold_left (fun m kv => imap_insert (fst kv) (snd kv) m) l m)).
  { induction H as [|x l X H IH]; intros m M; [exact M|]. cbn [fold_left]. apply IH. apply insert_all; assumption. }
  apply G. constructor.
Qed.
Lemma filter_all : forall A (P : A -> Prop) f l, Forall P l -> Forall P (filter f l).
Proof. intros A P f l H. apply Forall_forall. intros x I. apply filter_In in I. rewrite Forall_forall in H. apply H, I. Qed.

Section Clean.
Variable U : Uni.
Variable o : Options.
Variable checks : bool.
Theorem built_clean : forall a, built U o checks true clean_effect a -> forall s s', a s = Ok s' -> clean s -> clean s'.
Proof.
  intros a H. induction H; intros s s' E C.
  - injection E as <-. exact C.
  - discriminate.
  - apply seqa_ok in E. destruct E as (m & E1 & E2). eauto.
  - unfold get in E. eauto.
  - injection E as <-. destruct C. split; assumption.
  - injection E as <-. destruct C. split; assumption.
  - injection E as <-. cbn [clean_effect] in H. destruct C. cbv zeta. destruct (f_collecting (footnotes s)); split; cbn; try assumption.
    + apply (insert_all _ (fun v : reference * nat => open_url (fst v))); assumption.
    + apply insert_all; assumption.
  - injection E as <-. destruct C. split; assumption.
  - injection E as <-. destruct C. split; assumption.
  - injection E as <-. destruct C. split; assumption.
  - destruct (flush_references_eq s) as (m & Em & F). rewrite Em in E. injection E as <-. decompose [and] F. destruct C.
    split; [replace (pending_references m) with (@nil (str * reference)) by congruence; constructor| |]; replace (footnotes m) with (footnotes s) by congruence; assumption.
  - apply flush_footnotes_ok in E. destruct E as (texts & F). decompose [and] F. clear F. destruct C. split.
    + replace (pending_references s') with (pending_references s) by congruence. assumption.
    + replace (f_pending_references (footnotes s')) with (f_pending_references (footnotes s)) by congruence. assumption.
    + replace (f_pending (footnotes s')) with (reinsert (kept_footnotes l s)) by congruence.
      apply (reinsert_all _ note_fine). unfold kept_footnotes, live_footnotes. do 2 apply filter_all. assumption.
  - destruct (flush_footnote_references_eq l s) as (m & Em & F). rewrite Em in E. injection E as <-. decompose [and] F. clear F. destruct C. split.
    + replace (pending_references m) with (pending_references s) by congruence. assumption.
    + replace (f_pending_references (footnotes m)) with (reinsert (kept_footnote_references l s)) by congruence.
      apply (reinsert_all _ (fun v : reference * nat => open_url (fst v))). unfold kept_footnote_references, live_footnote_references. do 2 apply filter_all. assumption.
    + replace (f_pending (footnotes m)) with (f_pending (footnotes s)) by congruence. assumption.
  - injection E as <-. destruct C. cbv zeta. destruct (assoc_str n _); split; assumption.
  - injection E as <-. destruct C. split; assumption.
  - injection E as <-. cbn [clean_effect] in H. destruct C. split; cbn; try assumption.
    apply (insert_all _ note_fine); assumption.
  - injection E as <-. destruct C. split; assumption.
  - injection E as <-. destruct C. split; assumption.
  - unfold single_block, get in E. apply seqa_ok in E. destruct E as (m & E1 & E).
    apply seqa_ok in E. destruct E as (m2 & E2 & E). apply seqa_ok in E. destruct E as (m3 & E3 & E4).
    injection E1 as <-. injection E3 as <-. refine (H1 _ _ _ E4 _).
    assert (C2 : clean m2) by (apply (IHbuilt _ _ E2); destruct C; split; assumption). destruct C2. split; assumption.
  - rewrite <- H0 in E. eauto.
Qed.

(** ** What a flush ends in *)
Lemma reference_once : forall r, open_url r -> ends_once (reference_text r).
Proof.
  intros r N. unfold reference_text. do 2 apply ends_once_app. rewrite !app_assoc. apply ends_once_nl.
  unfold title_suffix. destruct (is_nil (ref_title r)) eqn:T.
  - rewrite app_nil_r. destruct (ref_url r) as [|c u] eqn:Q using rev_ind.
    + apply (ends_one _ (lit "]:")). discriminate.
    + apply ends_app. apply ends_one. intros ->. apply N. rewrite Q. eauto.
  - apply ends_app. rewrite !app_assoc. apply ends_one. discriminate.
Qed.
Lemma lines_black : forall fw cw words first cur, Forall blackened words -> cur = [] \/ blackened cur ->
  Forall blackened (footnote_lines U fw cw first cur words).
Proof.
  intros fw cw. induction words as [|w words IH]; intros first cur H C; cbn [footnote_lines].
  - destruct cur; [constructor|]. cbn [is_nil]. destruct C as [C|C]; [discriminate|]. repeat constructor. exact C.
  - inversion H as [|? ? Hw Hr]; subst. destruct cur as [|c cur].
    + cbn [is_nil]. apply IH; auto.
    + cbn [is_nil]. destruct C as [C|C]; [discriminate|]. destruct (SerModel.fits _ _).
      * apply IH; [exact Hr|]. right. do 2 apply ends_app. exact Hw.
      * constructor; [exact C|]. apply IH; auto.
Qed.
Lemma lines_nonempty : forall fw cw words first cur, Forall blackened words -> words <> [] \/ cur <> [] -> footnote_lines U fw cw first cur words <> [].
Proof.
  intros fw cw. induction words as [|w words IH]; intros first cur H [N|N]; cbn [footnote_lines]; try congruence.
  - destruct cur; [congruence|discriminate].
  - inversion H as [|? ? Hw Hr]; subst. destruct (is_nil cur); [|destruct (SerModel.fits _ _); [|discriminate]].
    + apply IH; [exact Hr|]. right. destruct Hw as (x & c & -> & _). destruct x; discriminate.
    + apply IH; [exact Hr|]. right. destruct cur; discriminate.
  - inversion H as [|? ? Hw Hr]; subst. destruct (is_nil cur); [|destruct (SerModel.fits _ _); [|discriminate]].
    + apply IH; [exact Hr|]. right. destruct Hw as (x & c & -> & _). destruct x; discriminate.
    + apply IH; [exact Hr|]. right. destruct cur; discriminate.
Qed.
Lemma body_once : forall prefix indent l y, blackened y -> ends_once (footnote_body prefix indent (l ++ [y])).
Proof.
  intros prefix indent l y Y.
  assert (G : ends_once (y ++ [c_nl])).
  { apply ends_once_nl. eapply ends_sub; [|exact Y]. intros c W ->. discriminate W. }
  destruct l as [|x l]; cbn [app footnote_body]; apply ends_once_app.
  - cbn [flat_map]. exact G.
  - rewrite flat_map_last. apply ends_once_app. apply (ends_once_app [c_nl]). apply ends_once_app.
    destruct y as [|c y]; [destruct Y as ([|? ?] & ? & Z & _); discriminate Z|]. cbn [is_nil]. rewrite <- app_assoc. apply ends_once_app. exact G.
Qed.
Lemma lines_last : forall s, blackened s -> exists l y, lines s = l ++ [y] /\ blackened y.
Proof.
  assert (G : forall s cur, blackened (rev cur ++ s) -> exists l y, lines_aux cur s = l ++ [y] /\ blackened y).
  { induction s as [|c s IH]; intros cur H; cbn [lines_aux].
    - rewrite app_nil_r in H. destruct cur as [|d cur]; [exfalso; apply (ends_nil _ H)|]. cbn [is_nil]. exists [], (rev (d :: cur)). split; [reflexivity|exact H].
    - destruct (ceq c c_nl) eqn:Q.
      + apply ceq_true in Q. subst c. destruct (IH []) as (l & y & E & Y).
        * cbn [rev app]. apply (ends_tail _ (rev cur ++ [c_nl])); [rewrite <- app_assoc; exact H|]. intros ->.
          destruct H as (x & c & E & W). apply app_inj_tail in E. destruct E as [_ <-]. discriminate W.
        * rewrite E. exists (strip_cr (rev cur) :: l), y. split; [reflexivity|exact Y].
      + apply IH. cbn [rev]. rewrite <- app_assoc. exact H. }
  intros s H. apply G. exact H.
Qed.
Lemma split_black : forall s, Forall blackened (split_whitespace s).
Proof.
  intro s. unfold split_whitespace.
  assert (G : forall s cur, (cur = [] \/ is_ws (hd c_nl cur) = false) -> Forall blackened (split_ws_aux cur s)).
  { induction s0 as [|c r IH]; intros cur C; cbn [split_ws_aux].
    - destruct cur as [|d cur]; [constructor|]. cbn [is_nil]. destruct C as [C|C]; [discriminate|]. constructor; [|constructor].
      cbn [rev]. apply ends_one. exact C.
    - destruct (is_ws c) eqn:W.
      + destruct cur as [|d cur]; cbn [is_nil]; [apply IH; auto|]. destruct C as [C|C]; [discriminate|].
        constructor; [cbn [rev]; apply ends_one; exact C|apply IH; auto].
      + apply IH. right. exact W. }
  apply G. auto.
Qed.
Lemma note_once : forall f text, note_fine f -> footnote_text U o checks f = Ok text -> ends_once text.
Proof.
  intros f text N E. unfold footnote_text in E. cbv zeta in E. unfold note_fine in N. destruct (fn_has_blocks f).
  { injection E as <-. destruct (lines_last _ (N eq_refl)) as (l & y & -> & Y). apply body_once. exact Y. }
  apply rbind_ok in E. destruct E as (fw & _ & E). apply rbind_ok in E. destruct E as (cw & _ & E).
  set (words := split_whitespace _) in E. assert (B : Forall blackened words) by apply split_black.
  clearbody words. destruct words as [|w words].
  - injection E as <-. change (lit "]: " ++ [c_nl]) with ((lit "]:" ++ [c_sp]) ++ [c_nl]).
    exists (lit "[^" ++ fn_name f ++ lit "]:"), c_sp. split; [|discriminate]. cbn. rewrite <- !app_assoc. reflexivity.
  - injection E as <-. assert (F := lines_black fw cw (w :: words) true [] B (or_introl eq_refl)).
    assert (Z := lines_nonempty fw cw (w :: words) true [] B ltac:(left; discriminate)). cbn [footnote_lines is_nil] in F, Z.
    destruct (exists_last Z) as (l & y & Q). rewrite Q in F. rewrite Q. apply body_once. apply Forall_app in F. destruct F as [_ F]. inversion F; assumption.
Qed.
Lemma section_once : forall out body b, ends_once out -> (b = false -> ends_once body) -> ends_once (out ++ section_text out body b).
Proof.
  intros out body b O H. unfold section_text. destruct b; [rewrite app_nil_r; exact O|]. do 2 apply ends_once_app. apply H. reflexivity.
Qed.
Lemma flat_once : forall A (f : A -> str) l, l <> [] -> Forall (fun a => ends_once (f a)) l -> ends_once (flat_map f l).
Proof.
  intros A f l N H. destruct (exists_last N) as (k & x & ->). rewrite flat_map_last. apply ends_once_app.
  apply Forall_app in H. destruct H as [_ H]. inversion H; assumption.
Qed.
Lemma flush_order_perm : forall A (num : A -> option N) l, Permutation l (flush_order num l).
Proof.
  intros A num l. apply (section_order_perm A num (fun x n => num x = Some n)); [intros; reflexivity|].
  apply flush_order_spec. intros; reflexivity.
Qed.
Lemma flush_all_once : forall before s s', clean s -> ends_once (output s) -> flush_all U o checks before s = Ok s' -> ends_once (output s').
Proof.
  intros before s s' C O E.
  unfold flush_all in E. apply seqa_ok in E. destruct E as (m & E1 & E). apply seqa_ok in E. destruct E as (m2 & E2 & E3).
  assert (C1 : clean m) by (eapply built_clean; [apply b_flush_notes; reflexivity|exact E1|exact C]).
  assert (C2 : clean m2) by (eapply built_clean; [apply b_flush_refs; reflexivity|exact E2|exact C1]).
  apply flush_footnotes_ok in E1. destruct E1 as (texts & F & O1 & _).
  destruct (flush_references_eq m) as (m2' & E2' & O2 & _). rewrite E2' in E2. injection E2 as ->.
  destruct (flush_footnote_references_eq before m2) as (m3 & E3' & O3 & _). rewrite E3' in E3. injection E3 as ->.
  assert (S1 : ends_once (output m)).
  { rewrite O1. apply section_once; [exact O|]. intro N.
    assert (P : Permutation (due_footnotes before s) (footnote_order (due_footnotes before s))) by apply flush_order_perm.
    assert (D : Forall note_fine (footnote_order (due_footnotes before s))).
    { eapply Permutation_Forall; [exact P|]. unfold due_footnotes, live_footnotes. apply Forall_map. do 2 apply filter_all. apply C. }
    assert (Z : footnote_order (due_footnotes before s) <> []).
    { intro Z. rewrite Z in P. apply Permutation_sym, Permutation_nil in P. rewrite P in N. discriminate N. }
    revert F D Z. generalize (footnote_order (due_footnotes before s)). clear. intros l F D Z.
    assert (T : Forall ends_once texts /\ texts <> []).
    { split.
      - clear Z. induction F as [|f t l texts Q F IH]; [constructor|]. inversion D; subst. constructor; [eapply note_once; eassumption|apply IH; assumption].
      - destruct F; [congruence|discriminate]. }
    destruct T as [T NT]. rewrite <- (map_id texts), <- flat_map_concat_map. apply flat_once; assumption. }
  assert (S2 : ends_once (output m2)).
  { rewrite O2. apply section_once; [exact S1|]. intro N.
    assert (P : Permutation (live_references m) (reference_order (live_references m))) by apply flush_order_perm.
    apply flat_once.
    - intro Z. rewrite Z in P. apply Permutation_sym, Permutation_nil in P. rewrite P in N. discriminate N.
    - eapply Permutation_Forall; [exact P|]. unfold live_references. apply filter_all. apply Forall_map.
      eapply Forall_impl; [|apply (cl_refs _ C1)]. intros kv K. apply reference_once. exact K. }
  rewrite O3. apply section_once; [exact S2|]. intro N. apply flat_once.
  - intro Z. rewrite Z in N. discriminate N.
  - unfold due_footnote_references, live_footnote_references. apply Forall_map. do 2 apply filter_all.
    eapply Forall_impl; [|apply (cl_note_refs _ C2)]. intros kv K. apply reference_once. exact K.
Qed.
End Clean.

Section Run.
Variable U : Uni.
Variable PN : list (str * str).
Variable ENT : str -> option str.
Variable o : Options.
Variable B : backend.
Variable src : list str.
Variable ends_nl : bool.
Variable checks : bool.
Notation ser := (serialize U PN ENT o B src ends_nl checks).

Lemma plain_has_blocks : forall n, plain_note n -> footnote_has_blocks (node_children n) = false.
Proof.
  intros n [H1 H2]. unfold footnote_has_blocks. apply orb_false_iff. split.
  - destruct (existsb _ _) eqn:X; [|reflexivity]. apply existsb_exists in X. destruct X as (c & I & V). specialize (H1 c I).
    destruct (node_value c); try discriminate V; destruct H1.
  - apply Nat.ltb_ge. destruct (le_lt_dec (List.length (filter is_paragraph (node_children n))) 1) as [L|L]; [exact L|]. exfalso.
    assert (G : forall l, 1 < List.length (filter is_paragraph l) ->
      exists a b c x y, l = a ++ x :: b ++ y :: c /\ is_paragraph x = true /\ is_paragraph y = true).
    { induction l as [|z l IH]; cbn [filter]; intro G; [cbn in G; lia|]. destruct (is_paragraph z) eqn:Z.
      - cbn [List.length] in G. destruct (filter is_paragraph l) as [|y r] eqn:F; [cbn in G; lia|].
        assert (I : In y (filter is_paragraph l)) by (rewrite F; left; reflexivity). apply filter_In in I. destruct I as [I Y].
        apply in_split in I. destruct I as (b & c & ->). exists [], b, c, z, y. auto.
      - destruct (IH G) as (a & b & c & x & y & -> & X & Y). exists (z :: a), b, c, x, y. auto. }
    destruct (G _ L) as (a & b & c & x & y & E & X & Y).
    assert (V : forall z, is_paragraph z = true -> node_value z = NParagraph).
    { intros z Q. unfold is_paragraph in Q. destruct (node_value z); try discriminate Q. reflexivity. }
    exact (H2 a b c x y E (V x X) (V y Y)).
Qed.
Lemma clean_effects0 : forall n, links_on_line n ->
  (forall m name, within m n -> node_value m = NFootnoteDefinition name -> footnote_has_blocks (node_children m) = false) ->
  effects_ok src checks clean_effect n.
Proof.
  intros n L P m W. split; [intros ws _; apply Forall_forall; intros w _; exact Logic.I|].
  destruct (node_value m) eqn:V; try exact Logic.I.
  - intros f _ Hf. cbn [clean_effect]. unfold note_fine. rewrite Hf. rewrite (P m _ W V). discriminate.
  - intro label. cbn [clean_effect]. unfold open_url. cbn [ref_url]. refine (L m _ _ W _). left. exact V.
  - intro label. cbn [clean_effect]. unfold open_url. cbn [ref_url]. refine (L m _ _ W _). right. exact V.
Qed.
Lemma clean_effects : forall n, links_on_line n -> notes_plain n -> effects_ok src checks clean_effect n.
Proof. intros n L P. apply clean_effects0; [exact L|]. intros m name W V. apply plain_has_blocks. exact (P m _ W V). Qed.
Lemma clean_child : forall n next s s', links_on_line n -> notes_plain n -> clean s -> ser next n s = Ok s' -> clean s'.
Proof.
  intros n next s s' L P C E. refine (built_clean U o checks (ser next n) _ _ _ E C). apply built_serialize; [intros; exact Logic.I|discriminate|].
  apply clean_effects; assumption.
Qed.
Lemma within_child : forall v p cs c m, In c cs -> within m c -> within m (Node v p cs).
Proof. intros. eapply within_below; eassumption. Qed.

(** ** Something is written *)
Definition inky (s : str) : Prop := exists c, In c s /\ is_ws c = false.
Lemma inky_r : forall a b, inky b -> inky (a ++ b).
Proof. intros a b (c & H & W). exists c. split; [apply in_or_app; right; exact H|exact W]. Qed.
Lemma inky_l : forall a b, inky a -> inky (a ++ b).
Proof. intros a b (c & H & W). exists c. split; [apply in_or_app; left; exact H|exact W]. Qed.
Lemma black_inky : forall s, blackened s -> inky s.
Proof. intros s (x & c & -> & W). exists c. split; [apply in_or_app; right; left; reflexivity|exact W]. Qed.
Lemma dark_inky : forall s, ends dark s -> inky s.
Proof. intros s H. apply black_inky. eapply ends_sub; [|exact H]. exact dark_ws. Qed.
Lemma inky_trim : forall s, inky s -> blackened (trim_end s).
Proof.
  intros s (c & H & W). destruct (trim_end_last s) as [Z|(a & d & -> & D)]; [|apply ends_one; exact D]. exfalso.
  destruct (trim_end_app s) as (t & E & F). rewrite Z in E. cbn [app] in E. subst t. rewrite Forall_forall in F. specialize (F c H). congruence.
Qed.
Lemma inky_grows : forall s s', inky (output s) -> grows s s' -> inky (output s').
Proof. intros s s' H [(t & ->) _ _ _]. apply inky_l. exact H. Qed.
Lemma fence_inky : forall content, inky (fence_for o content).
Proof.
  intro content. unfold fence_for. destruct (Nat.max _ _) eqn:Q; [lia|]. exists (fence_char_char (fence_char o)). split; [left; reflexivity|].
  destruct (fence_char o); reflexivity.
Qed.
Lemma kids_in : forall cs c, In c cs -> exists a next b, combine cs (with_next ser cs) = a ++ (c, ser next c) :: b.
Proof.
  induction cs as [|d cs IH]; intros c H; [destruct H|destruct H as [<-|H]]; cbn [with_next combine].
  - exists [], (hd_error cs). eexists. reflexivity.
  - destruct (IH _ H) as (a & next & b & ->). eexists (_ :: a), next, b. reflexivity.
Qed.
Definition gr_kids (k : kids) : Prop := Forall (fun x => gr (snd x)) k.
Lemma kids_gr : forall cs, gr_kids (combine cs (with_next ser cs)).
Proof. induction cs as [|c cs IH]; [constructor|]. cbn [with_next combine]. constructor; [apply serialize_grows|exact IH]. Qed.
Lemma gr_children : forall k, gr_kids k -> gr (children_acts k).
Proof. intros k H. unfold children_acts. apply gr_all. apply Forall_map. exact H. Qed.
Lemma gr_quote : forall k indent prefix first, gr_kids k -> gr (blockquote_children indent prefix first k).
Proof.
  induction k as [|[n a] k IH]; intros indent prefix first H; cbn [blockquote_children]; [apply gr_nop|]. inversion H as [|? ? Ha Hk]; subst.
  apply gr_seq; [destruct first; [apply gr_nop|apply gr_emit]|]. apply gr_seq; [exact Ha|apply IH; exact Hk].
Qed.
Lemma gr_code : forall f, gr (code_act f).
Proof. intro f. apply (built_gr U o checks true any_effect). apply built_code. intro n. apply Forall_forall. intros w _. exact Logic.I. Qed.
Lemma gr_item : forall base k prev, gr_kids k -> gr (item_children o B base prev k).
Proof.
  intros base. induction k as [|[n a] k IH]; intros prev H; cbn [item_children]; [apply gr_nop|]. inversion H as [|? ? Ha Hk]; subst. cbn [snd] in Ha.
  apply gr_seq; [|apply IH; exact Hk]. cbv zeta.
  destruct (node_value n); try exact Ha; repeat apply gr_seq; try exact Ha; try apply gr_emit; try (apply gr_get; intro; apply gr_emit).
  - apply gr_get. intro. apply gr_seq; [apply gr_emit|apply gr_code].
  - destruct prev; [|apply gr_nop]. apply gr_seq; [apply gr_emit|apply gr_get; intro; apply gr_emit].
Qed.
Lemma children_in : forall cs c s s', In c cs -> children_acts (combine cs (with_next ser cs)) s = Ok s' ->
  exists next m m', ser next c m = Ok m' /\ grows m' s'.
Proof.
  intros cs c s s' H E. assert (G := kids_gr cs). destruct (kids_in _ _ H) as (a & next & b & Q). rewrite Q in *.
  unfold children_acts in E. rewrite map_app, all_app in E. apply seqa_ok in E. destruct E as (m & _ & E).
  cbn [map] in E. rewrite all_cons in E. apply seqa_ok in E. destruct E as (m' & E1 & E2). exists next, m, m'. split; [exact E1|].
  apply Forall_app in G. destruct G as [_ G]. inversion G as [|? ? _ Gb]; subst. exact (gr_children _ Gb _ _ E2).
Qed.
Lemma quote_in : forall cs c indent prefix first s s', In c cs -> blockquote_children indent prefix first (combine cs (with_next ser cs)) s = Ok s' ->
  exists next m m', ser next c m = Ok m' /\ grows m' s'.
Proof.
  induction cs as [|d cs IH]; intros c indent prefix first s s' H E; [destruct H|]. cbn [with_next combine blockquote_children] in E.
  apply seqa_ok in E. destruct E as (m & _ & E). apply seqa_ok in E. destruct E as (m' & E1 & E2). destruct H as [<-|H].
  - eexists _, m, m'. split; [exact E1|]. exact (gr_quote _ _ _ _ (kids_gr cs) _ _ E2).
  - eapply IH; eassumption.
Qed.
Lemma item_in : forall cs c base prev s s', In c cs -> item_children o B base prev (combine cs (with_next ser cs)) s = Ok s' ->
  (exists next m m', ser next c m = Ok m' /\ grows m' s') \/ (exists info l, node_value c = NCodeBlock info l /\ inky (output s')).
Proof.
  induction cs as [|d cs IH]; intros c base prev s s' H E; [destruct H|]. cbn [with_next combine item_children] in E.
  apply seqa_ok in E. destruct E as (m' & E1 & E2). destruct H as [<-|H]; [|eapply IH; eassumption].
  assert (G : grows m' s') by (exact (gr_item _ _ _ (kids_gr cs) _ _ E2)). cbv zeta in E1.
  destruct (node_value d) eqn:V; try (left; eexists _, s, m'; split; [exact E1|exact G]);
    try (apply seqa_ok in E1; destruct E1 as (m & _ & E1); left; eexists _, m, m'; split; [exact E1|exact G]);
    try (apply seqa_ok in E1; destruct E1 as (m & _ & E1); apply seqa_ok in E1; destruct E1 as (m2 & _ & E1); left; eexists _, m2, m'; split; [exact E1|exact G]).
  right. do 2 eexists. split; [reflexivity|]. eapply inky_grows; [|exact G]. unfold get in E1. apply seqa_ok in E1. destruct E1 as (m & _ & E1).
  apply code_ok in E1. destruct E1 as (n & ->). apply inky_r. unfold code_block_indented. destruct (code_parts _ _ _ _ _) as [[info0 content] eff].
  cbn [fst]. apply inky_l. apply fence_inky.
Qed.
Lemma inked_writes : forall n, inked n -> forall next s s', ser next n s = Ok s' -> inky (output s').
Proof.
  intros n H. induction H as [p pre c F|info l p cs|aligns p row cs|a p cs|p cs c I K IH|kind tight p items v q cs c I1 V I2 K IH]; intros next s s' E;
    cbn [serialize] in E; cbv zeta in E.
  - unfold paragraph in E. cbn [node_pos] in E. destruct (extract_source src p) as [source|]; [|discriminate].
    match type of E with (match ?a with Some _ => _ | None => _ end) _ = _ => destruct a as [t|] eqn:A end.
    + destruct source as [x|]; [|discriminate]. destruct (starts_with (lit "*[") (trim x) && _) eqn:Q; [|discriminate]. injection A as <-.
      injection E as <-. cbn [output set_output]. apply inky_r, inky_l. apply black_inky.
      apply trim_core_dark. intro Z. rewrite Z in Q. discriminate Q.
    + apply inline_ok in E. destruct E as (x & evs & m & Ew & Om & Cm & E). unfold get in E.
      assert (X := content_ends dark dark_marks U ENT o src p pre c F x evs Ew).
      destruct (list_type (cx m)); injection E as <-; cbn [output set_output]; apply inky_r.
      * apply dark_inky. apply wrap_first_ends. apply dark_trim. exact X.
      * apply inky_l. apply dark_inky. apply wrap_text_ends. exact X.
  - unfold get in E. apply code_ok in E. destruct E as (i & ->). apply inky_r. unfold code_block. destruct (code_parts _ _ _ _ _) as [[info0 content] eff].
    cbn [fst]. apply inky_r, inky_l. apply fence_inky.
  - unfold table in E. cbn [is_nil] in E. apply seqa_ok in E. destruct E as (m & E1 & E).
    destruct (table_rows U ENT o src (row :: cs)) as [[cells evs]|] eqn:R; [|discriminate]. apply seqa_ok in E. destruct E as (m1 & E2 & E).
    injection E as <-. cbn [output set_output]. apply inky_r. apply table_rows_nonempty in R; [|discriminate]. unfold table_text.
    destruct cells as [|r cells]; [contradiction|]. cbn [map]. cbv zeta. apply inky_l. unfold row_text. apply inky_r, inky_l.
    exists c_pipe. split; [left; reflexivity|reflexivity].
  - assert (G : gr (block_quote (combine cs (with_next ser cs)))).
    { unfold block_quote. apply gr_get. intro. repeat apply gr_seq; [|apply gr_quote; apply kids_gr|];
        apply gr_upd; intro; split; exists []; rewrite app_nil_r; reflexivity. }
    unfold alert, get in E. apply seqa_ok in E. destruct E as (m & E1 & E). apply seqa_ok in E. destruct E as (m2 & E2 & E). injection E1 as <-.
    eapply inky_grows; [|exact (G _ _ E)]. assert (G2 : grows (set_output (output s ++ list_item_indent (cx s) ++ blockquote_prefix (cx s) ++ lit "> [!" ++ alert_name a ++ lit "]" ++ [c_nl]) s) m2).
    { revert E2. destruct (combine _ _) as [|[x ?] ?]; [apply gr_nop|]. destruct (_ <? _); [apply gr_emit|apply gr_nop]. }
    eapply inky_grows; [|exact G2]. cbn [output set_output]. do 3 apply inky_r. apply inky_l. exists c_gt. split; [left; reflexivity|reflexivity].
  - unfold block_quote, get in E. apply seqa_ok in E. destruct E as (m & E1 & E). apply seqa_ok in E. destruct E as (m1 & E2 & E). injection E as <-.
    cbn [output set_cx]. destruct (quote_in _ _ _ _ _ _ _ I E2) as (nx & x & y & E3 & G). eapply inky_grows; [|exact G]. eapply IH. exact E3.
  - unfold list_block, get in E. apply seqa_ok in E. destruct E as (m & _ & E). apply seqa_ok in E. destruct E as (m1 & E1 & E).
    apply seqa_ok in E. destruct E as (m2 & E2 & E). injection E as <-. destruct (list_depth (cx m1) =? 0); [discriminate|]. injection E2 as <-.
    cbn [output set_cx]. destruct (children_in _ _ _ _ I1 E1) as (nx & x & y & E3 & G). eapply inky_grows; [|exact G]. clear E1 G m1.
    assert (exists task, list_item o B task (combine cs (with_next ser cs)) x = Ok y) as (task & E4).
    { destruct V as [->|(t & ->)]; cbn [serialize] in E3; cbv zeta in E3; eauto. }
    unfold list_item in E4. apply seqa_ok in E4. destruct E4 as (z1 & _ & E4). unfold get in E4. apply seqa_ok in E4. destruct E4 as (z2 & _ & E4).
    destruct (item_base_indent _ _) as [base|]; [|discriminate]. apply seqa_ok in E4. destruct E4 as (z3 & _ & E4).
    apply seqa_ok in E4. destruct E4 as (z4 & E5 & E4). apply seqa_ok in E4. destruct E4 as (z5 & E6 & E4). injection E6 as <-.
    assert (Z : inky (output z4)).
    { destruct (item_in _ _ _ _ _ _ I2 E5) as [(nx' & x' & y' & E7 & G)|(info & l & _ & Z)]; [|exact Z]. eapply inky_grows; [|exact G]. eapply IH. exact E7. }
    destruct (last_child _) as [c'|]; [destruct (ends_with_newline_kind c')|]; injection E4 as <-; try exact Z; cbn [output set_output set_cx]; apply inky_l; exact Z.
Qed.

(** ** Footnotes with blocks *)
Lemma blocks_clean : forall cs result first f s s',
  (forall content m m', blackened content -> clean m -> f content m = Ok m' -> clean m') ->
  Forall (fun c => links_on_line c /\ notes_plain c) cs -> clean s ->
  inky result \/ (exists c, In c cs /\ inked c) ->
  footnote_blocks result first (combine cs (with_next ser cs)) f s = Ok s' -> clean s'.
Proof.
  induction cs as [|c cs IH]; intros result first f s s' Hf H C I E; cbn [with_next combine footnote_blocks] in E.
  - destruct I as [I|(c & [] & _)]. eapply Hf; [|exact C|exact E]. apply inky_trim. exact I.
  - inversion H as [|? ? [L P] Hc]; subst. unfold single_block, get in E. apply seqa_ok in E. destruct E as (m & E1 & E).
    apply seqa_ok in E. destruct E as (m2 & E2 & E). apply seqa_ok in E. destruct E as (m3 & E3 & E4). injection E1 as <-. injection E3 as <-.
    assert (C0 : clean (set_output [] s)) by (destruct C; split; assumption).
    assert (C2 := clean_child _ _ _ _ L P C0 E2).
    eapply IH; [exact Hf|exact Hc| | |exact E4]; [destruct C2; split; assumption|].
    destruct I as [I|(d & [<-|I] & K)]; [left; apply inky_l; exact I| |right; eauto].
    left. do 2 apply inky_r. apply black_inky. apply inky_trim. eapply inked_writes; [exact K|exact E2].
Qed.
Lemma filled_clean : forall n next s s', filled_note n -> links_on_line n -> clean s -> ser next n s = Ok s' -> clean s'.
Proof.
  intros [v p cs] next s s' ((name & V) & I & P) L C E. cbn [node_value node_children] in *. subst v.
  destruct (footnote_has_blocks cs) eqn:HB.
  - cbn [serialize] in E. cbv zeta in E. unfold footnote_definition, get in E. cbv zeta in E. rewrite HB in E.
    apply seqa_ok in E. destruct E as (m & E1 & E). eapply blocks_clean; [| | | |exact E].
    + intros content x y K Cx Q. apply seqa_ok in Q. destruct Q as (z & E2 & E3). injection E2 as <-. injection E3 as <-. destruct Cx. split; cbn; try assumption.
      apply insert_all; [|assumption]. intros _. exact K.
    + rewrite Forall_forall in *. intros c Hc. split; [|exact (P c Hc)]. intros m0 url title W. apply (L m0 url title). eapply within_below; eassumption.
    + injection E1 as <-. destruct C. split; assumption.
    + right. exact I.
  - refine (built_clean U o checks (ser next _) _ _ _ E C). apply built_serialize; [intros; exact Logic.I|discriminate|].
    apply clean_effects0; [exact L|]. intros m nm W Vm. inversion W as [|? ? ? c Hc Wc]; subst; [exact HB|].
    apply plain_has_blocks. rewrite Forall_forall in P. exact (P c Hc m nm Wc Vm).
Qed.

Definition good_child (n : node) : Prop :=
  no_document n = true /\ links_on_line n /\ (notes_plain n \/ filled_note n) /\ forall d, directs n d -> formats d.
Record ready (s : st) : Prop := { re_skip : skip s = SkipNone; re_type : list_type (cx s) = None; re_clean : clean s }.
Lemma ready_child : forall n next s s', good_child n -> ready s -> ser next n s = Ok s' -> ready s'.
Proof.
  intros n next s s' (D & L & P & _) [R1 R2 R3] E. split.
  - rewrite (in_skip _ _ (serialize_inner _ _ _ _ _ _ _ _ _ _ _ _ D E)). exact R1.
  - rewrite (serialize_ltype U PN ENT o B src ends_nl checks _ _ _ _ E). exact R2.
  - destruct P as [P|P]; [exact (clean_child _ _ _ _ L P R3 E)|exact (filled_clean _ _ _ _ P L R3 E)].
Qed.
Lemma ready_flush : forall before s s', ready s -> flush_all U o checks before s = Ok s' -> ready s'.
Proof.
  intros before s s' [R1 R2 R3] E. pose proof (built_clean U o checks _ (built_flush_all U o checks true clean_effect before eq_refl) _ _ E R3) as C.
  unfold flush_all in E. apply seqa_ok in E. destruct E as (m & E1 & E). apply seqa_ok in E. destruct E as (m2 & E2 & E3).
  apply flush_footnotes_ok in E1. destruct E1 as (texts & E1). decompose [and] E1.
  destruct (flush_references_eq m) as (m2' & E2' & F2). rewrite E2' in E2. injection E2 as ->. decompose [and] F2.
  destruct (flush_footnote_references_eq before m2) as (m3 & E3' & F3). rewrite E3' in E3. injection E3 as ->. decompose [and] F3.
  split; [congruence| |exact C]. replace (cx s') with (cx s) by congruence. exact R2.
Qed.
Lemma block_step : forall prev n next s s', good_child n -> ready s -> document_block U o src checks prev n (ser next n) s = Ok s' ->
  ready s' /\ exists m, ready m /\ ser next n m = Ok s'.
Proof.
  intros prev n next s s' G R E. unfold document_block in E. apply seqa_ok in E. destruct E as (m & E1 & E).
  apply seqa_ok in E. destruct E as (m2 & E2 & E). injection E2 as <-. unfold get in E. cbv zeta in E. cbn [skip set_output] in E.
  assert (Rm : ready m).
  { destruct (heading_level n) as [[|[|[|[|l]]]]|]; try (injection E1 as <-; exact R);
      (destruct prev; [exact (ready_flush _ _ _ R E1)|injection E1 as <-; exact R]). }
  rewrite (re_skip _ Rm) in E.
  assert (Rm2 : ready (set_output (output m ++ block_separator prev n) m)) by (destruct Rm as [R1 R2 [C1 C2 C3]]; split; [exact R1|exact R2|split; assumption]).
  split; [exact (ready_child _ _ _ _ G Rm2 E)|]. eauto.
Qed.
Lemma directive_step : forall prev n l d s s', good_child n -> directs n d -> html_literal n l -> ready s ->
  directive_act U o checks prev n l d s = Ok s' -> ready s' /\ exists x, output s' = x ++ l.
Proof.
  intros prev n l d s s' (_ & _ & _ & G) D V [R1 R2 [C1 C2 C3]] E.
  destruct (G d D) as [->|[(w & ->)|(w & ->)]]; injection E as <-; (split; [split; [try reflexivity; exact R1|exact R2|split; assumption]|]);
    cbn [output set_output set_skip set_nouns]; eexists; rewrite app_assoc; reflexivity.
Qed.

(** From the last block on. *)
Lemma rest_run : forall tail defs prev s s', Forall note_definition defs -> ready s ->
  (htmls tail = [] /\ ends_once (output s)) \/ (exists hs l, htmls tail = hs ++ [l] /\ ends_once l) ->
  doc_run U PN ENT o B src ends_nl checks tail prev defs s s' -> ends_once (output s').
Proof.
  intros tail. induction defs as [|n defs IH]; intros prev s s' D R H E.
  - inversion E as [? ? m ? E1 E2| | | | | ]; subst. apply output_trailing_first in E2. rewrite E2.
    destruct H as [(-> & O)|(hs & l & -> & O)].
    + cbn [is_nil List.concat app]. rewrite app_nil_r. exact (flush_all_once U o checks _ _ _ (re_clean _ R) O E1).
    + rewrite concat_app. cbn [List.concat]. rewrite app_nil_r, !app_assoc. apply ends_once_app. exact O.
  - inversion D as [|? ? Dn Dd]; subst. inversion E as [|? ? ? ? ? N1 E1|? ? ? ? ? T E1|? ? ? ? ? ? Dr|? ? ? ? ? ? ? ? Dr|? ? ? ? ? ? O]; subst.
    + eauto.
    + eauto.
    + exfalso. destruct Dn as (name & V). destruct Dr as (l' & b & V' & _). congruence.
    + exfalso. destruct Dn as (name & V). destruct Dr as (l' & b & V' & _). congruence.
    + exfalso. destruct O as [O _]. exact (O Dn).
Qed.

Lemma document_run : forall tail c defs pre prev s s',
  Forall note_definition defs -> tidy U o src c -> Forall good_child (pre ++ c :: defs) -> ready s ->
  (trails c defs -> exists hs l, htmls tail = hs ++ [l] /\ html_literal c l) ->
  (~ trails c defs -> htmls tail = []) ->
  doc_run U PN ENT o B src ends_nl checks tail prev (pre ++ c :: defs) s s' -> ends_once (output s').
Proof.
  intros tail c defs. induction pre as [|n pre IH]; intros prev s s' D T G R H1 H2 E.
  - cbn [app] in *. inversion G as [|? ? Gc Gd]; subst.
    inversion E as [|? ? ? ? ? N1 E1|? ? ? ? ? Tr E1|? ? ? ? ? ? Dr Hl Df|? ? d l ? ? m ? Dr Nd Hl Da E1|? ? ? ? m ? O Db E1]; subst.
    + destruct N1 as (name & V). exfalso. destruct T; discriminate V.
    + destruct (H1 Tr) as (hs & l & Q & V). eapply rest_run; [exact D|exact R| |exact E1]. right. exists hs, l. split; [exact Q|].
      unfold html_literal in V. destruct T; try discriminate V. injection V as <-. assumption.
    + exfalso. destruct Gc as (_ & _ & _ & Gc). destruct (Gc _ Dr) as [Q|[(w & Q)|(w & Q)]]; discriminate Q.
    + destruct (directive_step _ _ _ _ _ _ Gc Dr Hl R Da) as (Rm & x & Ox). eapply rest_run; [exact D|exact Rm| |exact E1]. left.
      assert (NT : ~ trails c defs).
      { intros (_ & M & _). destruct M as [(name & V)|(_ & M)]; [unfold html_literal in Hl; congruence|exact (M _ Dr)]. }
      split; [exact (H2 NT)|]. rewrite Ox. apply ends_once_app. unfold html_literal in Hl. destruct T; try discriminate Hl. injection Hl as <-. assumption.
    + destruct (block_step _ _ _ _ _ Gc R Db) as (Rm & m0 & R0 & E0). eapply rest_run; [exact D|exact Rm| |exact E1]. left.
      split; [apply H2; apply O|]. eapply tidy_ends; [exact T|left; exact (re_type _ R0)|exact E0].
  - cbn [app] in *. inversion G as [|? ? Gn Gp]; subst.
    inversion E as [|? ? ? ? ? N1 E1|? ? ? ? ? Tr E1|? ? ? ? ? ? Dr Hl Df|? ? d l ? ? m ? Dr Nd Hl Da E1|? ? ? ? m ? O Db E1]; subst.
    + eapply IH; eassumption.
    + eapply IH; eassumption.
    + exfalso. destruct Gn as (_ & _ & _ & Gc). destruct (Gc _ Dr) as [Q|[(w & Q)|(w & Q)]]; discriminate Q.
    + destruct (directive_step _ _ _ _ _ _ Gn Dr Hl R Da) as (Rm & _). eapply IH; eassumption.
    + destruct (block_step _ _ _ _ _ Gn R Db) as (Rm & _). eapply IH; eassumption.
Qed.

Lemma htmls_notes : forall defs, Forall note_definition defs -> htmls defs = [].
Proof.
  intros defs H. induction H as [|n defs (name & V) H IH]; [reflexivity|]. unfold htmls in *. cbn [flat_map]. rewrite V. exact IH.
Qed.
Lemma tail_trails : forall pre c defs, Forall note_definition defs -> trails c defs ->
  exists hs l, htmls (skipn (find_trailing_html_blocks (pre ++ c :: defs)) (pre ++ c :: defs)) = hs ++ [l] /\ html_literal c l.
Proof.
  intros pre c defs D T. destruct T as ((l & V) & T). exists (htmls (skipn (find_trailing_html_blocks (pre ++ c :: defs)) pre)), l.
  split; [|exact V]. assert (Hc : is_html_block c = true) by (unfold is_html_block; rewrite V; reflexivity).
  assert (Z : find_trailing_html_blocks (pre ++ c :: defs) - List.length pre = 0).
  { apply (trails_iff pre c defs Hc). split; [eauto|exact T]. }
  rewrite skipn_app, Z. cbn [skipn]. unfold htmls at 1. rewrite flat_map_app. fold (htmls (skipn (find_trailing_html_blocks (pre ++ c :: defs)) pre)).
  f_equal. cbn [flat_map]. rewrite V. fold (htmls defs). rewrite (htmls_notes _ D). reflexivity.
Qed.
Lemma trailing_notes : forall l r seen start, Forall note_definition l -> trailing_html (l ++ r) seen start = trailing_html r (List.length l + seen) start.
Proof.
  induction l as [|n l IH]; intros r seen start H; [reflexivity|]. inversion H as [|? ? (name & V) Hl]; subst. cbn [app trailing_html]. rewrite V.
  rewrite (IH _ _ _ Hl). f_equal. cbn [List.length]. lia.
Qed.
Lemma tail_none : forall pre c defs, Forall note_definition defs -> ~ note_definition c -> ~ trails c defs ->
  htmls (skipn (find_trailing_html_blocks (pre ++ c :: defs)) (pre ++ c :: defs)) = [].
Proof.
  intros pre c defs D N T. unfold find_trailing_html_blocks. rewrite rev_app_distr. cbn [rev]. rewrite <- app_assoc. cbn [app].
  rewrite (trailing_notes _ _ _ _ (Forall_rev D)).
  assert (Z : forall seen r, trailing_html (c :: r) seen 0 = 0).
  { intros seen r. cbn [trailing_html]. destruct (node_value c) eqn:V; try reflexivity; [|exfalso; apply N; eexists; exact V].
    destruct (parse_directive literal) eqn:P; [reflexivity|]. exfalso. apply T.
    split; [exists literal; exact V|]. split.
    - right. split; [exists literal; exact V|]. intros d Dd. apply directs_iff in Dd. unfold directive_of in Dd. rewrite V in Dd. congruence.
    - eapply Forall_impl; [|exact D]. intros n Hn. left. exact Hn. }
  rewrite Z, Nat.sub_0_r, skipn_all. reflexivity.
Qed.
Lemma notes_ready : forall cs s s', Forall good_child cs -> ready s -> notes_run U PN ENT o B src ends_nl checks cs s s' -> ready s'.
Proof.
  intros cs s s' G R H. revert G R. induction H as [s|n cs s m s' N E H IH|n cs s s' N H IH]; intros G R; [exact R|..];
    inversion G as [|? ? Gn Gc]; subst.
  - apply IH; [exact Gc|]. exact (ready_child _ _ _ _ Gn R E).
  - apply IH; assumption.
Qed.
Lemma lines_keep : forall n s s', collect_reference_lines n s = Ok s' ->
  skip s' = skip s /\ cx s' = cx s /\ pending_references s' = pending_references s
  /\ f_pending_references (footnotes s') = f_pending_references (footnotes s) /\ f_pending (footnotes s') = f_pending (footnotes s).
Proof.
  induction n as [v p cs IH] using node_ind'. intros s s' E. cbn [collect_reference_lines] in E. apply seqa_ok in E. destruct E as (m & E1 & E2).
  assert (A : skip m = skip s /\ cx m = cx s /\ pending_references m = pending_references s
    /\ f_pending_references (footnotes m) = f_pending_references (footnotes s) /\ f_pending (footnotes m) = f_pending (footnotes s)).
  { destruct v; injection E1 as <-; auto. cbv zeta. destruct (assoc_str _ _); auto. }
  clear E1. revert m E2 A. induction IH as [|c cs Hc H IH2]; intros m E2 A; [injection E2 as <-; exact A|].
  cbn [map] in E2. rewrite all_cons in E2. apply seqa_ok in E2. destruct E2 as (m2 & E2 & E3). apply Hc in E2. apply (IH2 _ E3).
  destruct A as (? & ? & ? & ? & ?), E2 as (? & ? & ? & ? & ?). repeat split; congruence.
Qed.

Theorem ends_document : forall p pre c defs s,
  forallb no_document (pre ++ c :: defs) = true ->
  Forall note_definition defs -> tidy U o src c ->
  (forall n d, In n (pre ++ c :: defs) -> directs n d -> formats d) ->
  links_on_line (Node NDocument p (pre ++ c :: defs)) -> Forall (fun n => notes_plain n \/ filled_note n) (pre ++ c :: defs) ->
  serialize_root U PN ENT o B src ends_nl checks (Node NDocument p (pre ++ c :: defs)) = Ok s -> ends_once (output s).
Proof.
  intros p pre c defs s ND D T F L P E. set (cs := pre ++ c :: defs) in *.
  assert (G : Forall good_child cs).
  { apply Forall_forall. intros n I. rewrite forallb_forall in ND. split; [exact (ND n I)|].
    split; [intros m url title W; apply (L m url title); eapply within_child; eassumption|].
    split; [rewrite Forall_forall in P; exact (P n I)|]. intros d. apply F. exact I. }
  apply root_steps in E. destruct E as (ws & m1 & m2 & _ & E1 & E2 & E3).
  assert (R : ready m2).
  { eapply notes_ready; [exact G| |exact E2]. apply lines_keep in E1. destruct E1 as (K1 & K2 & K3 & K4 & K5).
    split; [exact K1|rewrite K2; reflexivity|]. split; rewrite ?K3, ?K4, ?K5; constructor. }
  eapply document_run; [exact D|exact T|exact G|exact R| | |exact E3].
  - apply tail_trails. exact D.
  - apply tail_none; [exact D|]. intros (name & V). destruct T; discriminate V.
Qed.
End Run.
