(** Every reference of the inline content of a document is used in its run. *)
From Coq Require Import Bool Arith NArith Lia ZifyBool ZifyNat ZifyN String List.
From Verif Require Import Base BaseFacts OptsModel WrapModel CodeModel TableModel HeadingModel AstModel StateModel
  InlineModel WarnModel SerModel SpecState SpecContext SpecDoc SpecRefs SpecEnd SpecBlocks SpecStructure StateProof SerFacts SerBuilt OutputProof RefProof DocProof PropsDoc DocRun EndProof StructDoc.
Import ListNotations.

Section Uses.
Variable U : Uni.
Variable PN : list (str * str).
Variable ENT : str -> option str.
Variable o : Options.
Variable B : backend.
Variable src : list str.
Variable ends_nl : bool.
Variable checks : bool.
Notation ser := (serialize U PN ENT o B src ends_nl checks).
Notation refers := (SpecStructure.refers U ENT o src).

(** [a] adds the uses of [R] and no others. *)
Definition logs (R : reference -> Prop) (a : act) : Prop :=
  forall s s', a s = Ok s' -> forall r, In r (uses (trace s')) <-> In r (uses (trace s)) \/ R r.
Definition none : reference -> Prop := fun _ => False.
Lemma logs_trace : forall a, (forall s s', a s = Ok s' -> uses (trace s') = uses (trace s)) -> logs none a.
Proof. intros a H s s' E r. rewrite (H _ _ E). unfold none. tauto. Qed.
Lemma logs_weak : forall (R R' : reference -> Prop) a, (forall r, R' r <-> R r) -> logs R a -> logs R' a.
Proof. intros R R' a W L s s' E r. rewrite (L _ _ E r), (W r). reflexivity. Qed.
Lemma logs_seq : forall R R' a b, logs R a -> logs R' b -> logs (fun r => R r \/ R' r) (a ;; b).
Proof.
  intros R R' a b La Lb s s' E r. apply seqa_ok in E. destruct E as (m & E1 & E2). rewrite (Lb _ _ E2 r), (La _ _ E1 r). tauto.
Qed.
Lemma logs_left : forall R a b, logs R a -> logs none b -> logs R (a ;; b).
Proof. intros R a b La Lb. apply (logs_weak (fun r => R r \/ none r)); [unfold none; tauto|apply logs_seq; assumption]. Qed.
Lemma logs_right : forall R a b, logs none a -> logs R b -> logs R (a ;; b).
Proof. intros R a b La Lb. apply (logs_weak (fun r => none r \/ R r)); [unfold none; tauto|apply logs_seq; assumption]. Qed.
Lemma logs_get : forall A (f : st -> A) R k, (forall x, logs R (k x)) -> logs R (get f k).
Proof. intros A f R k H s s' E. exact (H _ _ _ E). Qed.
Lemma logs_emit : forall x, logs none (emit x). Proof. intro. apply logs_trace. intros s s' E. injection E as <-. reflexivity. Qed.
Lemma logs_nop : logs none nop. Proof. apply logs_trace. intros s s' E. injection E as <-. reflexivity. Qed.
Lemma logs_panic : forall R, logs R panic. Proof. intros R s s' E. discriminate. Qed.
Lemma logs_updc : forall f, logs none (updc f).
Proof. intro f. apply logs_trace. intros s s' E. injection E as <-. reflexivity. Qed.
Lemma logs_same : forall f, (forall s, trace (f s) = trace s) -> logs none (upd f).
Proof. intros f H. apply logs_trace. intros s s' E. injection E as <-. rewrite H. reflexivity. Qed.
Lemma logs_code_event : forall x, logs none (log (SerModel.Code x)).
Proof. intro x. apply logs_trace. intros s s' E. injection E as <-. cbn [trace set_trace]. rewrite uses_app. apply app_nil_r. Qed.
Lemma logs_code : forall f, logs none (code_act f).
Proof.
  intro f. apply logs_get. intro n. destruct (f n) as [t eff]. apply logs_right; [apply logs_same; reflexivity|].
  apply logs_right; [apply logs_code_event|apply logs_emit].
Qed.
Lemma logs_event : forall e, logs (fun r => e = EvUse r) (do_event e).
Proof.
  intros [r|x].
  - intros s s' E. injection E as <-. cbv zeta.
    match goal with |- forall r', In _ (uses (trace ?x)) <-> _ => assert (T : trace x = trace s ++ [Use r]) by (destruct (f_collecting (footnotes s)); reflexivity) end.
    rewrite T, uses_app. intro r'. rewrite in_app_iff. cbn. split; (intros [H|H]; [left; exact H|right]).
    + destruct H as [->|[]]. reflexivity.
    + injection H as ->. left. reflexivity.
  - eapply logs_weak; [|apply logs_code_event]. intro r. split; [discriminate|intros []].
Qed.
Lemma logs_events : forall evs, logs (fun r => In (EvUse r) evs) (all (map do_event evs)).
Proof.
  induction evs as [|e evs IH]; [apply logs_nop|]. cbn [map all fold_right].
  eapply logs_weak; [|apply logs_seq; [apply logs_event|exact IH]]. intros r. cbn [In]. tauto.
Qed.
Lemma logs_inline : forall w k, (forall x, logs none (k x)) ->
  logs (fun r => exists x evs, w = Ok (x, evs) /\ In (EvUse r) evs) (inline w k).
Proof.
  intros [[x evs]|] k H; [|intros s s' E; discriminate]. cbn [inline].
  apply logs_left; [|apply H]. eapply logs_weak; [|apply logs_events]. intro r. split; [intros (x' & evs' & Q & I); injection Q as <- <-; exact I|eauto].
Qed.

(** Of the children. *)
Definition among_kids (k : kids) (r : reference) : Prop := exists na, In na k /\ refers (fst na) r.
Definition kids_log (k : kids) : Prop := Forall (fun na => logs (refers (fst na)) (snd na)) k.
Lemma kids_cons : forall na k r, among_kids (na :: k) r <-> refers (fst na) r \/ among_kids k r.
Proof.
  intros na k r. split.
  - intros (x & [<-|I] & H); [left; exact H|right; exists x; auto].
  - intros [H|(x & I & H)]; [exists na; split; [left; reflexivity|exact H]|exists x; split; [right; exact I|exact H]].
Qed.
Lemma kids_nil : forall r, among_kids [] r <-> none r.
Proof. intro r. split; [intros (x & [] & _)|intros []]. Qed.
Lemma no_refers : forall v p cs r, match v with NParagraph | NHeading _ | NTable _ | NBlockQuote | NAlert _ | NList _ _ | NItem | NTaskItem _ | NFootnoteDefinition _
    | NDescriptionList | NDescriptionItem | NDescriptionTerm | NDescriptionDetails => False | _ => True end ->
  refers (Node v p cs) r <-> none r.
Proof. intros v p cs r V. split; [|intros []]. intro H. inversion H; subst; try contradiction. destruct v; contradiction. Qed.
Lemma logs_children : forall k, kids_log k -> logs (among_kids k) (children_acts k).
Proof.
  intros k F. induction F as [|na k L F IH]; [exact (logs_weak _ _ _ kids_nil logs_nop)|].
  eapply logs_weak; [exact (kids_cons na k)|]. change (children_acts (na :: k)) with (snd na ;; children_acts k). apply logs_seq; assumption.
Qed.
Lemma logs_quoted : forall i p k f, kids_log k -> logs (among_kids k) (blockquote_children i p f k).
Proof.
  intros i p k f F. revert f. induction F as [|[n a] k L F IH]; intro f; [exact (logs_weak _ _ _ kids_nil logs_nop)|].
  eapply logs_weak; [exact (kids_cons (n, a) k)|]. cbn [blockquote_children]. apply logs_right; [destruct f; [apply logs_nop|apply logs_emit]|].
  apply logs_seq; [exact L|apply IH].
Qed.
Lemma logs_quote : forall k, kids_log k -> logs (among_kids k) (block_quote k).
Proof.
  intros k F. apply logs_get. intro c. apply logs_right; [apply logs_updc|]. apply logs_left; [apply logs_quoted; exact F|apply logs_updc].
Qed.
Lemma logs_item_children : forall base k prev, kids_log k -> logs (among_kids k) (item_children o B base prev k).
Proof.
  intros base k prev F. revert prev. induction F as [|[n a] k L F IH]; intro prev; [exact (logs_weak _ _ _ kids_nil logs_nop)|].
  eapply logs_weak; [exact (kids_cons (n, a) k)|]. cbn [item_children fst snd] in *. apply logs_seq; [|apply IH].
  destruct n as [v p cs]. cbn [node_value].
  assert (Em : forall e, logs none (get cx (fun c => emit (e c)))) by (intro e; apply logs_get; intro; apply logs_emit).
  destruct v; try exact L; cbv zeta; first
    [ apply logs_right; [apply logs_emit|exact L]
    | apply logs_right; [apply logs_emit|]; apply logs_right; [apply Em|exact L]
    | apply logs_right; [|exact L]; destruct prev; [apply logs_right; [apply logs_emit|apply Em]|apply logs_nop]
    | eapply logs_weak; [|apply logs_get; intro; apply logs_right; [apply logs_emit|apply logs_code]]; intro r; apply no_refers; exact Logic.I ].
Qed.
Lemma logs_item : forall t k, kids_log k -> logs (among_kids k) (list_item o B t k).
Proof.
  intros t k F. apply logs_right; [apply logs_updc|]. apply logs_get. intro c. apply logs_right; [apply logs_emit|].
  destruct (item_base_indent o c); [|apply logs_panic]. apply logs_right; [apply logs_updc|]. apply logs_left; [apply logs_item_children; exact F|].
  apply logs_right; [apply logs_updc|]. destruct (last_child k) as [n|]; [destruct (ends_with_newline_kind n)|]; first [apply logs_nop|apply logs_emit].
Qed.
Lemma logs_list : forall kind tight k, kids_log k -> logs (among_kids k) (list_block kind tight k).
Proof.
  intros kind tight k F. apply logs_get. intro c. apply logs_right; [apply logs_updc|]. apply logs_left; [apply logs_children; exact F|].
  apply logs_right; [|apply logs_updc]. apply logs_get. intro d. destruct (d =? 0); [apply logs_panic|apply logs_nop].
Qed.
Lemma rcollect_events : forall cs ys evs, rcollect (map (inline_content U ENT o src) cs) = Ok (ys, evs) ->
  forall e, In e evs <-> exists c x evs', In c cs /\ inline_content U ENT o src c = Ok (x, evs') /\ In e evs'.
Proof.
  induction cs as [|d cs IH]; intros ys evs H e; cbn [map rcollect] in H.
  - injection H as _ <-. split; [intros []|intros (c & _ & _ & [] & _)].
  - destruct (inline_content U ENT o src d) as [[y e1]|] eqn:Ed; [|discriminate]. cbn [rbind] in H.
    destruct (rcollect _) as [[zs es]|] eqn:Er; [|discriminate]. cbn [rbind fst snd] in H. injection H as <- <-.
    rewrite in_app_iff, (IH zs es eq_refl). split.
    + intros [I|(c & x & evs' & I & E & J)]; [exists d, y, e1; split; [left; reflexivity|auto]|exists c, x, evs'; split; [right; exact I|auto]].
    + intros (c & x & evs' & [<-|I] & E & J); [left; congruence|right; eauto 6].
Qed.
Lemma table_events : forall rows ys evs, table_rows U ENT o src rows = Ok (ys, evs) ->
  forall e, In e evs <-> exists row c x evs', In row rows /\ In c (node_children row) /\ inline_content U ENT o src c = Ok (x, evs') /\ In e evs'.
Proof.
  induction rows as [|d rows IH]; intros ys evs H e; cbn [table_rows] in H.
  - injection H as _ <-. split; [intros []|intros (c & _ & _ & _ & [] & _)].
  - destruct (rcollect _) as [[zs es]|] eqn:Er; [|discriminate]. cbn [rbind fst snd] in H.
    destruct (table_rows _ _ _ _ rows) as [[zs' es']|] eqn:Et; [|discriminate]. cbn [rbind fst snd] in H. injection H as <- <-.
    rewrite in_app_iff, (rcollect_events _ _ _ Er), (IH _ _ eq_refl). split.
    + intros [(c & x & evs' & I & E & J)|(row & c & x & evs' & R & I & E & J)]; [exists d, c, x, evs'; split; [left; reflexivity|auto]|exists row, c, x, evs'; split; [right; exact R|auto]].
    + intros (row & c & x & evs' & [<-|R] & I & E & J); [left; eauto 6|right; eauto 10].
Qed.
Lemma logs_table : forall p aligns rows q, logs (refers (Node (NTable aligns) q rows)) (table U ENT o src p aligns rows).
Proof.
  intros p aligns rows q. unfold table. destruct rows as [|row rows].
  - eapply logs_weak; [|apply logs_nop]. intro r. split; [|intros []]. intro H. inversion H; subst; contradiction.
  - cbn [is_nil]. apply logs_right; [apply logs_same; reflexivity|].
    destruct (table_rows U ENT o src (row :: rows)) as [[ys evs]|] eqn:E; [|apply logs_panic].
    apply logs_left; [|apply logs_get; intro; apply logs_emit]. eapply logs_weak; [|apply logs_events].
    intro r. rewrite (table_events _ _ _ E). split.
    + intro H. inversion H; subst; [|contradiction]. eauto 10.
    + intros (w & c & x & evs' & R & I & Ec & J). eapply rf_cell; eassumption.
Qed.
Lemma logs_paragraph : forall p cs, unabbreviated src p -> logs (refers (Node NParagraph p cs)) (paragraph U ENT o src (Node NParagraph p cs)).
Proof.
  intros p cs Un. unfold paragraph. cbn [node_pos]. unfold unabbreviated in Un. destruct (extract_source src p) as [source|]; [|apply logs_panic].
  assert (W : forall k, (forall x, logs none (k x)) -> logs (refers (Node NParagraph p cs)) (inline (inline_content U ENT o src (Node NParagraph p cs)) k)).
  { intros k K. eapply logs_weak; [|apply logs_inline; exact K]. intro r. split; [intro H; inversion H; subst; [|contradiction]; eauto|intros (x & evs & E & I); eapply rf_para; eassumption]. }
  assert (K : forall content, logs none (get cx (fun c => match list_type c with
    | Some _ => emit (wrap_text_first_line U (trim content) [] (paragraph_continuation o c) (line_width o))
    | None => let prefix := if in_block_quote c then blockquote_outer_indent c ++ blockquote_prefix c else [] in emit (wrap_text U content prefix (line_width o) ++ [c_nl])
    end))).
  { intro content. apply logs_get. intro c. destruct (list_type c); apply logs_emit. }
  cbv zeta. match goal with |- logs _ (match ?a with Some _ => _ | None => _ end) => destruct a as [t|] eqn:A end; [|apply W; exact K].
  exfalso. destruct source as [x|]; [|discriminate]. destruct (starts_with (lit "*[") (trim x)) eqn:Q; [|discriminate].
  unfold starts_with in Q. destruct (strip_prefix (lit "*[") (trim x)) as [r|] eqn:Sp; [|discriminate]. apply strip_prefix_app in Sp.
  destruct (trim_app x) as (a & b & Ex & _). apply (Un x eq_refl a (r ++ b)). rewrite Sp, <- app_assoc in Ex. exact Ex.
Qed.
Lemma logs_heading : forall level p cs, logs (refers (Node (NHeading level) p cs)) (heading U PN ENT o src (Node (NHeading level) p cs) level).
Proof.
  intros level p cs. unfold heading. eapply logs_weak; [|apply logs_inline; intro; apply logs_get; intro; apply logs_emit].
  intro r. split; [intro H; inversion H; subst; [|contradiction]; eauto|intros (x & evs & E & I); eapply rf_head; eassumption].
Qed.

(** Descriptions. *)
Lemma logs_details_paragraph : forall quote mark p cs, logs (refers (Node NParagraph p cs)) (details_paragraph U ENT o src quote mark (Node NParagraph p cs)).
Proof.
  intros quote mark p cs. unfold details_paragraph. apply logs_right; [apply logs_emit|]. eapply logs_weak; [|apply logs_inline; intro; apply logs_emit].
  intro r. split; [intro H; inversion H; subst; [|contradiction]; eauto|intros (x & evs & E & I); eapply rf_para; eassumption].
Qed.
Lemma logs_details : forall k quote first, kids_log k -> logs (among_kids k) (details_children U ENT o B src quote first k).
Proof.
  intros k quote first F. revert first. induction F as [|[n a] k L F IH]; intro first; [exact (logs_weak _ _ _ kids_nil logs_nop)|].
  eapply logs_weak; [exact (kids_cons (n, a) k)|]. cbn [details_children fst snd] in *. apply logs_seq; [|apply IH].
  assert (Wi : forall indent, logs (refers n) (with_item_indent indent a)).
  { intro indent. apply logs_get. intro old. apply logs_right; [apply logs_updc|]. apply logs_left; [exact L|apply logs_updc]. }
  destruct n as [v p cs]. cbn [node_value].
  assert (Cd : forall info literal, v = NCodeBlock info literal -> forall f, logs (refers (Node v p cs)) (code_act f)).
  { intros info literal -> f. eapply logs_weak; [|apply logs_code]. intro r. apply no_refers. exact Logic.I. }
  destruct first; [|apply logs_right; [apply logs_emit|]]; destruct v; try apply logs_details_paragraph; try apply Wi; try exact L;
    (apply logs_right; [apply logs_emit|]); try apply Wi; try exact L; try (eapply Cd; reflexivity).
  apply logs_right; [apply logs_updc|]. apply logs_left; [exact L|apply logs_updc].
Qed.
Lemma logs_description : forall k first, kids_log k -> logs (among_kids k) (description_list first k).
Proof.
  intros k first F. revert first. induction F as [|[n a] k L F IH]; intro first; [exact (logs_weak _ _ _ kids_nil logs_nop)|].
  eapply logs_weak; [exact (kids_cons (n, a) k)|]. cbn [description_list]. apply logs_right.
  - destruct first; [apply logs_nop|]. apply logs_get. intro c. destruct (in_block_quote c); apply logs_emit.
  - apply logs_seq; [exact L|apply IH].
Qed.

(** The kids of [cs]. *)
Lemma kids_all : forall cs, Forall (fun c => forall next, logs (refers c) (ser next c)) cs -> kids_log (combine cs (with_next ser cs)).
Proof. intros cs F. induction F as [|c cs H F IH]; [constructor|]. cbn [with_next combine]. constructor; [apply H|exact IH]. Qed.
Lemma kids_in : forall v p cs,
  match v with NBlockQuote | NAlert _ | NList _ _ | NItem | NTaskItem _ | NFootnoteDefinition _
             | NDescriptionList | NDescriptionItem | NDescriptionTerm | NDescriptionDetails => True | _ => False end ->
  forall r, refers (Node v p cs) r <-> among_kids (combine cs (with_next ser cs)) r.
Proof.
  intros v p cs V r.
  assert (F : map fst (combine cs (with_next ser cs)) = cs).
  { clear. induction cs as [|c cs IH]; [reflexivity|]. cbn [with_next combine map fst]. rewrite IH. reflexivity. }
  split.
  - intro H. inversion H as [| | |? ? ? c ? _ I R]; subst; try contradiction. rewrite <- F in I. apply in_map_iff in I.
    destruct I as (na & <- & I). exists na. auto.
  - intros (na & I & R). apply (rf_in U ENT o src v p cs (fst na) r V); [|exact R]. rewrite <- F. apply in_map. exact I.
Qed.
Definition fine (n : node) : Prop :=
  (exists w, good U PN ENT o B src w n) \/ (exists w, good_item U PN ENT o B src w n) \/ (exists k, good_entry U PN ENT o B src k n)
  \/ (exists p cs v, (v = NDescriptionTerm \/ v = NDescriptionDetails) /\ n = Node v p cs /\ Forall (fun c => exists w, good U PN ENT o B src w c) cs).
Lemma good_logs : forall n next, fine n -> logs (refers n) (ser next n).
Proof.
  apply (node_ind' (fun n => forall next, fine n -> logs (refers n) (ser next n))).
  intros v p cs IH next G.
  assert (K : Forall fine cs -> kids_log (combine cs (with_next ser cs))).
  { intro F. apply kids_all. rewrite Forall_forall in *. intros c I. intro nx. apply IH; [exact I|apply F; exact I]. }
  assert (Kg : forall w, Forall (good U PN ENT o B src w) cs -> kids_log (combine cs (with_next ser cs))).
  { intros w' F. apply K. eapply Forall_impl; [|exact F]. intros c Gc. left. eauto. }
  assert (Ki : forall w, Forall (good_item U PN ENT o B src w) cs -> kids_log (combine cs (with_next ser cs))).
  { intros w' F. apply K. eapply Forall_impl; [|exact F]. intros c Gc. right. left. eauto. }
  destruct G as [[w G]|[[w G]|[[w G]|(q & cs' & v' & Hv & Q & F)]]]; [inversion G; subst|inversion G; subst|inversion G; subst|injection Q as <- <- <-]; cbn [serialize]; cbv zeta.
  - apply logs_paragraph. assumption.
  - apply logs_heading.
  - eapply logs_weak; [|apply logs_get; intro; apply logs_code]. intro r. apply no_refers. exact Logic.I.
  - eapply logs_weak; [|apply logs_get; intro; apply logs_emit]. intro r. apply no_refers. exact Logic.I.
  - eapply logs_weak; [|apply logs_quote; eapply Kg; eassumption]. apply kids_in. exact Logic.I.
  - eapply logs_weak; [|apply logs_get; intro; apply logs_right; [apply logs_emit|apply logs_right; [|apply logs_quote; eapply Kg; eassumption]]].
    + apply kids_in. exact Logic.I.
    + destruct (combine cs (with_next ser cs)) as [|[f a'] k']; [apply logs_nop|]. destruct (_ <? _); [apply logs_emit|apply logs_nop].
  - eapply logs_weak; [|apply logs_list; eapply Ki; eassumption]. apply kids_in. exact Logic.I.
  - apply logs_table.
  - eapply logs_weak; [|apply logs_emit]. intro r. apply no_refers. exact Logic.I.
  - eapply logs_weak; [|apply logs_description; apply K; eapply Forall_impl; [|eassumption]; intros c Gc; right; right; left; eexists; exact Gc]. apply kids_in. exact Logic.I.
  - eapply logs_weak; [|apply logs_item; constructor]. apply kids_in. exact Logic.I.
  - assert (F : kids_log (combine (Node NParagraph q ics :: cs0) (with_next ser (Node NParagraph q ics :: cs0)))).
    { eapply Kg. constructor; eassumption. }
    match goal with X : _ \/ _ |- _ => destruct X as [[-> _]|[symbol ->]] end; (eapply logs_weak; [|apply logs_item; exact F]; apply kids_in; exact Logic.I).
  - eapply logs_weak; [|apply logs_children; apply K].
    + apply kids_in. exact Logic.I.
    + constructor; [|constructor; [|constructor]]; right; right; right.
      * eexists _, _, _. split; [left; reflexivity|]. split; [reflexivity|]. constructor; [eexists; eassumption|constructor].
      * eexists _, _, _. split; [right; reflexivity|]. split; [reflexivity|]. constructor; [eexists; eassumption|].
        eapply Forall_impl; [|eassumption]. cbv beta. intros c Gc. eexists. exact Gc.
  - assert (Ks : kids_log (combine cs (with_next ser cs))).
    { apply K. eapply Forall_impl; [|exact F]. intros c Gc. left. exact Gc. }
    destruct Hv as [-> | ->].
    + eapply logs_weak; [|apply logs_children; exact Ks]. apply kids_in. exact Logic.I.
    + eapply logs_weak; [|apply logs_get; intro c; apply logs_right; [apply logs_updc|]; apply logs_left; [apply logs_details; exact Ks|apply logs_updc]]. apply kids_in. exact Logic.I.
Qed.

(** Footnotes. *)
Lemma logs_single : forall R R' a k, logs R a -> (forall x, logs R' (k x)) -> logs (fun r => R r \/ R' r) (single_block a k).
Proof.
  intros R R' a k La Lk. apply logs_get. intro old. apply logs_right; [apply logs_same; reflexivity|]. apply logs_seq; [exact La|].
  apply logs_get. intro out. apply logs_right; [apply logs_same; reflexivity|apply Lk].
Qed.
Lemma logs_footnote_blocks : forall k, kids_log k -> forall fin, (forall x, logs none (fin x)) ->
  forall result first, logs (among_kids k) (footnote_blocks result first k fin).
Proof.
  intros k F fin Lf. induction F as [|[n a] k L F IH]; intros result first.
  - exact (logs_weak _ _ _ kids_nil (Lf _)).
  - eapply logs_weak; [exact (kids_cons (n, a) k)|]. cbn [footnote_blocks]. apply logs_single; [exact L|]. intro x. apply IH.
Qed.
Lemma note_logs : forall n next, good_note U PN ENT o B src n -> logs (refers n) (ser next n).
Proof.
  intros n next G.
  assert (Fin : forall (f : str -> footnote) x, logs none (set_collecting false 0 ;; add_footnote (f x))).
  { intros f x. apply logs_right; apply logs_same; reflexivity. }
  inversion G; subst; clear G; cbn [serialize]; cbv zeta; unfold footnote_definition; cbv zeta.
  - apply logs_get. intro line. apply logs_right; [apply logs_same; reflexivity|]. change (footnote_has_blocks [Node NParagraph q ics]) with false. cbv iota.
    assert (W : wcat (with_next (collect_inline U ENT o src) [Node NParagraph q ics]) = Ok (x, evs)).
    { cbn [with_next wcat fold_right hd_error].
      change (wapp (wcat (with_next (collect_inline U ENT o src) ics)) (wret []) = Ok (x, evs)). 
      match goal with H : inline_content _ _ _ _ _ = _ |- _ => unfold inline_content in H; cbn [node_children] in H; rewrite H end. cbn. rewrite !app_nil_r. reflexivity. }
    eapply logs_weak; [|apply logs_inline; intro y; apply (Fin (fun y => mkFootnote name (trim y) line false))].
    intro r. split.
    + intro R. exists x, evs. split; [exact W|]. inversion R as [| | |? ? ? c ? _ I R']; subst. destruct I as [<-|[]]. inversion R'; subst; [|contradiction]. congruence.
    + intros (y & evs' & Q & I). eapply rf_in; [exact Logic.I|left; reflexivity|]. eapply rf_para; [eassumption|]. congruence.
  - apply logs_get. intro line. apply logs_right; [apply logs_same; reflexivity|].
    assert (Hb : footnote_has_blocks (Node NParagraph q ics :: cs) = true).
    { apply (StructNote.blocks_seen o (S (byte_len name))); [|assumption]. eapply Forall_impl; [|eassumption]. intros c Hc. apply Hc. }
    rewrite Hb. eapply logs_weak; [|apply logs_footnote_blocks; [|intro y; apply (Fin (fun y => mkFootnote name y line true))]].
    + apply kids_in. exact Logic.I.
    + apply kids_all. constructor; [intro nx; apply good_logs; left; eauto|]. eapply Forall_impl; [|eassumption]. intros c [Gc _] nx. apply good_logs. left. eauto.
Qed.

(** ** Documents *)
Lemma flush_uses : forall line, logs none (flush_all U o checks line).
Proof.
  intro line. apply logs_trace. intros s s' E. unfold flush_all in E. apply seqa_ok in E. destruct E as (m & E1 & E).
  apply seqa_ok in E. destruct E as (m2 & E2 & E3).
  apply flush_footnotes_ok in E1. destruct E1 as (texts & _ & _ & T1 & _).
  destruct (flush_references_eq m) as (z & Ez & _ & T2 & _). rewrite Ez in E2. injection E2 as <-.
  destruct (flush_footnote_references_eq line z) as (z' & Ez' & _ & T3 & _). rewrite Ez' in E3. injection E3 as <-.
  rewrite T3, uses_app, uses_defs, app_nil_r, T2, uses_app, uses_defs, app_nil_r, T1, uses_app, uses_notes, app_nil_r. reflexivity.
Qed.
Lemma trailing_uses : forall first tail, logs none (output_trailing first tail).
Proof.
  intros first tail. revert first. induction tail as [|n tail IH]; intro first; [apply logs_nop|].
  cbn [output_trailing]. destruct (node_value n); try apply IH. apply logs_right; [|apply logs_right; [apply logs_emit|apply IH]].
  destruct first; [|apply logs_nop]. apply logs_get. intro out. destruct (ends_with [c_nl; c_nl] out); [apply logs_nop|]. destruct (ends_with [c_nl] out); apply logs_emit.
Qed.
Definition used_in (sort : bool) (cs : list node) (r : reference) : Prop := exists n, In n cs /\ is_note n = sort /\ refers n r.
Lemma used_cons : forall sort n cs r, used_in sort (n :: cs) r <-> is_note n = sort /\ refers n r \/ used_in sort cs r.
Proof.
  intros sort n cs r. split.
  - intros (m & [<-|I] & H); [left; exact H|right; exists m; auto].
  - intros [H|(m & I & H)]; [exists n; split; [left; reflexivity|exact H]|exists m; split; [right; exact I|exact H]].
Qed.
Lemma used_other : forall sort n cs r, is_note n <> sort -> used_in sort (n :: cs) r <-> used_in sort cs r.
Proof. intros sort n cs r H. rewrite used_cons. tauto. Qed.
Lemma notes_uses : forall cs s s', notes_run U PN ENT o B src ends_nl checks cs s s' ->
  Forall (usual U PN ENT o B src) cs -> forallb no_document cs = true ->
  skip s' = skip s /\ forall r, In r (uses (trace s')) <-> In r (uses (trace s)) \/ used_in true cs r.
Proof.
  intros cs s s' H. induction H as [s|n cs s m s' N E H IH|n cs s s' N H IH]; intros F D.
  - split; [reflexivity|]. intro r. split; [auto|intros [I|(n & [] & _)]; exact I].
  - inversion F as [|? ? Fn F']; subst. cbn [forallb] in D. apply andb_true_iff in D. destruct D as [Dn D].
    destruct (IH F' D) as (S1 & H1). pose proof (usual_note _ _ _ _ _ _ _ Fn N) as G.
    pose proof (note_logs n _ G _ _ E) as L1.
    split; [rewrite S1; apply (serialize_inner _ _ _ _ _ _ _ _ _ _ _ _ Dn E)|].
    intro r. apply is_note_iff in N. rewrite (H1 r), (L1 r), used_cons. tauto.
  - inversion F as [|? ? Fn F']; subst. cbn [forallb] in D. apply andb_true_iff in D. destruct D as [Dn D].
    destruct (IH F' D) as (S1 & H1). split; [exact S1|]. intro r. rewrite (H1 r), used_other; [reflexivity|]. rewrite is_note_false by exact N. discriminate.
Qed.
Lemma run_uses : forall tail prev cs s s', doc_run U PN ENT o B src ends_nl checks tail prev cs s s' ->
  Forall (usual U PN ENT o B src) cs -> forallb no_document cs = true -> skip s = SkipNone ->
  forall r, In r (uses (trace s')) <-> In r (uses (trace s)) \/ used_in false cs r.
Proof.
  intros tail prev cs s s' H. induction H as [prev s m s' E1 E2|prev n cs s s' N H IH|prev n cs s s' T H IH|prev n l cs s s' Dr Hl E|prev n d l cs s m s' Dr Nd Hl E H IH|prev n cs s m s' Or E H IH]; intros F D Sk r.
  - rewrite (trailing_uses _ _ _ _ E2 r), (flush_uses _ _ _ E1 r). unfold none. split; [tauto|intros [I|(n & [] & _)]; tauto].
  - inversion F as [|? ? Fn F']; subst. cbn [forallb] in D. apply andb_true_iff in D. destruct D as [Dn D].
    rewrite (IH F' D Sk r), used_other; [reflexivity|]. apply is_note_iff in N. rewrite N. discriminate.
  - inversion F as [|? ? Fn F']; subst. cbn [forallb] in D. apply andb_true_iff in D. destruct D as [Dn D].
    rewrite (IH F' D Sk r), used_cons. destruct T as [[lt V] _]. destruct n as [v q ics]. unfold html_literal in V. cbn [node_value] in V. subst v.
    rewrite no_refers by exact Logic.I. unfold none. tauto.
  - exfalso. inversion F as [|? ? Fn F']; subst. destruct Fn as [G|G]; [apply good_sorts in G; destruct G as (_ & G & _); exact (G _ Dr)|].
    inversion G; subst; discriminate Hl.
  - exfalso. inversion F as [|? ? Fn F']; subst. destruct Fn as [G|G]; [apply good_sorts in G; destruct G as (_ & G & _); exact (G _ Dr)|].
    inversion G; subst; discriminate Hl.
  - inversion F as [|? ? Fn F']; subst. cbn [forallb] in D. apply andb_true_iff in D. destruct D as [Dn D].
    destruct Or as [No _]. pose proof (usual_good _ _ _ _ _ _ _ Fn No) as G.
    unfold document_block in E. apply seqa_ok in E. destruct E as (m1 & E1 & E). apply seqa_ok in E. destruct E as (m2 & E2 & E).
    assert (P1 : (forall r, In r (uses (trace m1)) <-> In r (uses (trace s))) /\ skip m1 = SkipNone).
    { assert (Z : nop s = Ok m1 -> (forall r, In r (uses (trace m1)) <-> In r (uses (trace s))) /\ skip m1 = SkipNone) by (intro Q; injection Q as <-; split; [reflexivity|exact Sk]).
      assert (Y : forall b, flush_all U o checks b s = Ok m1 -> (forall r, In r (uses (trace m1)) <-> In r (uses (trace s))) /\ skip m1 = SkipNone).
      { intros b Q. split; [intro r'; rewrite (flush_uses b _ _ Q r'); unfold none; tauto|]. apply flush_all_ok in Q. destruct Q as (fl & _ & _ & Q). congruence. }
      destruct (heading_level n) as [[|[|[|[|k]]]]|]; try exact (Z E1); destruct prev; try exact (Z E1); exact (Y _ E1). }
    destruct P1 as [K1 S1]. injection E2 as <-. unfold get in E. cbn [skip set_output] in E. rewrite S1 in E.
    pose proof (good_logs n _ (or_introl (ex_intro _ _ G)) _ _ E r) as L1. cbn [trace set_output] in L1. rewrite (K1 r) in L1.
    assert (S2 : skip m = SkipNone) by (rewrite (in_skip _ _ (serialize_inner _ _ _ _ _ _ _ _ _ _ _ _ Dn E)); exact S1).
    rewrite (IH F' D S2 r), L1, used_cons. rewrite (is_note_false _ No). tauto.
Qed.
Theorem document_uses : forall p cs s', good_document U PN ENT o B src cs -> forallb no_document cs = true ->
  serialize_root U PN ENT o B src ends_nl checks (Node NDocument p cs) = Ok s' ->
  forall r, In r (uses (trace s')) <-> exists n, In n cs /\ refers n r.
Proof.
  intros p cs s' G D E r. apply root_steps in E. destruct E as (ws & m1 & m2 & _ & E1 & E2 & E3).
  destruct (root_start U PN ENT o B src checks _ _ _ _ E1) as (R1 & _ & _ & _ & _ & _ & _ & T1). pose proof (rd_skip _ _ _ _ _ _ _ _ _ R1) as S1.
  destruct (notes_uses _ _ _ E2 (gt_children _ _ _ _ _ _ _ G) D) as (S2 & H2).
  rewrite (run_uses _ _ _ _ _ E3 (gt_children _ _ _ _ _ _ _ G) D ltac:(congruence) r), (H2 r), T1. cbn. split.
  - intros [[[]|(n & I & _ & R)]|(n & I & _ & R)]; eauto.
  - intros (n & I & R). destruct (is_note n) eqn:Q; [left; right|right]; exists n; auto.
Qed.
End Uses.
