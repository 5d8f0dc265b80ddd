(** What has been written before does not matter (C56): two runs from states
    that differ in the text before, the warnings, the formatter calls and the
    definitions written. *)
From Coq Require Import Bool Arith NArith Lia ZifyBool ZifyNat ZifyN String List.
From Verif Require Import Base BaseFacts OptsModel WrapModel CodeModel TableModel HeadingModel AstModel StateModel
  InlineModel WarnModel SerModel SpecContext SpecParts StateProof SerFacts.
Import ListNotations.

Section Frame.
Variable U : Uni.
Variable PN : list (str * str).
Variable ENT : str -> option str.
Variable o : Options.
Variable B : backend.
Variable src : list str.
Variable ends_nl : bool.
Variable checks : bool.
Hypothesis steadyB : steady B.
Notation ser := (serialize U PN ENT o B src ends_nl checks).

(** Labels that may have been defined before. *)
Variable E : list str.
(** How the footnotes of the two runs are related. *)
Variable FR : footnote_set -> footnote_set -> Prop.
Hypothesis FRc : forall f g, FR f g -> f_collecting f = f_collecting g.
Hypothesis FRu : forall f g k v, FR f g -> f_collecting f = true ->
  FR (mkFootnotes (f_pending f) (f_emitted f) (f_reference_lines f) (f_collecting f) (f_current_line f) (imap_insert k (v, f_current_line f) (f_pending_references f)))
     (mkFootnotes (f_pending g) (f_emitted g) (f_reference_lines g) (f_collecting g) (f_current_line g) (imap_insert k (v, f_current_line g) (f_pending_references g))).
(** Footnotes may occur. *)
Definition closed : Prop := forall f g, FR f g <-> f = g.

Record fr (p : str) (s t : st) : Prop := {
  fr_output : output t = p ++ output s;
  fr_cx : cx t = cx s;
  fr_pending : pending_references t = pending_references s;
  fr_emitted : forall l, mem l E = false -> mem l (emitted_references t) = mem l (emitted_references s);
  fr_notes : FR (footnotes s) (footnotes t);
  fr_skip : skip t = skip s;
  fr_proper : proper_nouns t = proper_nouns s;
  fr_common : common_nouns t = common_nouns s
}.
Definition sim (a : act) : Prop := forall p s t s', fr p s t -> a s = Ok s' -> exists t', a t = Ok t' /\ fr p s' t'.

Lemma sim_upd : forall f, (forall p s t, fr p s t -> fr p (f s) (f t)) -> sim (upd f).
Proof. intros f F p s t s' R X. injection X as <-. eexists. split; [reflexivity|]. apply F. exact R. Qed.
Lemma sim_nop : sim nop.
Proof. intros p s t s' R X. injection X as <-. exists t. split; [reflexivity|exact R]. Qed.
Lemma sim_panic : sim panic. Proof. intros p s t s' R X. discriminate X. Qed.
Lemma sim_seq : forall a b, sim a -> sim b -> sim (a ;; b).
Proof.
  intros a b A B0 p s t s' R X. apply seqa_ok in X. destruct X as (m & X1 & X2). destruct (A _ _ _ _ R X1) as (n & Y1 & R').
  destruct (B0 _ _ _ _ R' X2) as (t' & Y2 & R2). exists t'. split; [|exact R2]. apply seqa_ok. exists n. split; assumption.
Qed.
Lemma sim_all : forall l, Forall sim l -> sim (all l).
Proof. intros l F. induction F; [apply sim_nop|]. change (sim (seqa x (all l))). apply sim_seq; assumption. Qed.
Lemma sim_get : forall A (f : st -> A) k, (forall p s t, fr p s t -> f t = f s) -> (forall x, sim (k x)) -> sim (get f k).
Proof. intros A f k F K p s t s' R X. unfold get in *. rewrite (F _ _ _ R). exact (K _ _ _ _ _ R X). Qed.
Lemma sim_cx : forall k, (forall c, sim (k c)) -> sim (get cx k).
Proof. intros k K. apply sim_get; [|exact K]. intros p s t R. apply (fr_cx _ _ _ R). Qed.
Lemma sim_emit : forall x, sim (emit x).
Proof.
  intro x. apply sim_upd. intros p s t []. split; cbn [output cx pending_references emitted_references footnotes skip proper_nouns common_nouns set_output]; try assumption.
  rewrite fr_output0. symmetry. apply app_assoc.
Qed.
Ltac same := intros p s t []; split; assumption.
Lemma sim_log : forall x, sim (log x).
Proof. intro x. apply sim_upd. same. Qed.
Lemma sim_warn : forall f, sim (upd (fun s => set_warnings (f s) s)).
Proof. intro f. apply sim_upd. same. Qed.
Lemma sim_calls : forall f g, sim (upd (fun s => set_calls (f s) (set_warnings (g s) s))).
Proof. intros f g. apply sim_upd. same. Qed.
Lemma sim_updc : forall f, sim (updc f).
Proof. intro f. apply sim_upd. intros p s t []. split; try assumption. cbn [cx set_cx]. rewrite fr_cx0. reflexivity. Qed.
Lemma sim_skip_set : forall m, sim (upd (set_skip m)).
Proof. intro m. apply sim_upd. intros p s t []. split; try assumption. reflexivity. Qed.
Lemma sim_nouns_set : forall f g, sim (upd (fun s => set_nouns (f (proper_nouns s)) (g (common_nouns s)) s)).
Proof. intros f g. apply sim_upd. intros p s t []. split; try assumption; cbn [proper_nouns common_nouns set_nouns]; congruence. Qed.
Lemma sim_use : forall r, sim (add_reference r).
Proof.
  intro r. apply sim_upd. intros p s t []. cbv zeta. rewrite <- (FRc _ _ fr_notes0). destruct (f_collecting (footnotes s)) eqn:C; split; try assumption.
  - cbn [footnotes set_footnotes]. pose proof (FRu _ _ (ref_label r) r fr_notes0 C) as Z. rewrite <- (FRc _ _ fr_notes0), C in Z. exact Z.
  - cbn [pending_references set_pending]. rewrite fr_pending0. reflexivity.
Qed.
Lemma sim_event : forall e, sim (do_event e).
Proof. intros [r|x]; [apply sim_use|apply sim_log]. Qed.
Lemma sim_inline : forall w k, (forall x, sim (k x)) -> sim (inline w k).
Proof.
  intros [[x evs]|] k K; [|apply sim_panic]. cbn [inline]. apply sim_seq; [|apply K]. apply sim_all. apply Forall_map. apply Forall_forall. intros e _. apply sim_event.
Qed.
Lemma sim_code : forall f, (forall i j, f i = f j) -> sim (code_act f).
Proof.
  intros f F p s t s' R X. unfold code_act, get in *. rewrite (F (List.length (calls t)) (List.length (calls s))).
  destruct (f (List.length (calls s))) as [text eff]. revert p s t s' R X. apply sim_seq; [apply sim_calls|]. apply sim_seq; [apply sim_log|apply sim_emit].
Qed.
Lemma sim_single : forall a k, sim a -> (forall x, sim (k x)) -> sim (single_block a k).
Proof.
  intros a k A K p s t s' R X. unfold single_block, get in *. apply seqa_ok in X. destruct X as (m & X1 & X). injection X1 as <-.
  apply seqa_ok in X. destruct X as (m & X1 & X).
  assert (R0 : fr [] (set_output [] s) (set_output [] t)) by (destruct R; split; try assumption; reflexivity).
  destruct (A _ _ _ _ R0 X1) as (n & Y1 & R1). apply seqa_ok in X. destruct X as (m2 & X2 & X3). injection X2 as <-.
  assert (R2 : fr p (set_output (output s) m) (set_output (output t) n)) by (destruct R, R1; split; try assumption).
  destruct (K (trim_end (output m)) _ _ _ _ R2 X3) as (t' & Y2 & R3). exists t'. split; [|exact R3].
  apply seqa_ok. eexists. split; [reflexivity|]. apply seqa_ok. exists n. split; [exact Y1|]. apply seqa_ok. eexists. split; [reflexivity|].
  pose proof (fr_output _ _ _ R1) as O. cbn [app] in O. rewrite O. exact Y2.
Qed.
(** Footnotes, where the two runs have the same. *)
Lemma closed_fr : closed -> forall p s t, fr p s t -> footnotes t = footnotes s.
Proof. intros C p s t R. symmetry. apply C. apply (fr_notes _ _ _ R). Qed.
Lemma sim_notes : closed -> forall f, sim (upd (fun s => set_footnotes (f (footnotes s)) s)).
Proof.
  intros C f. apply sim_upd. intros p s t R. pose proof (closed_fr C _ _ _ R) as N. destruct R. split; try assumption. cbn [footnotes set_footnotes]. rewrite N. apply C. reflexivity.
Qed.
Lemma sim_ext : forall a b, (forall s, a s = b s) -> sim a -> sim b.
Proof. intros a b X A p s t s' R Y. rewrite <- X in Y. destruct (A _ _ _ _ R Y) as (t' & Z & R'). exists t'. rewrite <- X. split; assumption. Qed.
Lemma sim_record : closed -> forall n l, sim (record_reference_line n l).
Proof.
  intros C n l. apply (sim_ext (upd (fun s => set_footnotes (match assoc_str n (f_reference_lines (footnotes s)) with Some _ => footnotes s
    | None => mkFootnotes (f_pending (footnotes s)) (f_emitted (footnotes s)) (f_reference_lines (footnotes s) ++ [(n, l)])
                (f_collecting (footnotes s)) (f_current_line (footnotes s)) (f_pending_references (footnotes s)) end) s))).
  - intro s. unfold record_reference_line, upd. cbv zeta. destruct (assoc_str n (f_reference_lines (footnotes s))); [|reflexivity]. destruct s; reflexivity.
  - apply (sim_notes C (fun f => match assoc_str n (f_reference_lines f) with Some _ => f
    | None => mkFootnotes (f_pending f) (f_emitted f) (f_reference_lines f ++ [(n, l)]) (f_collecting f) (f_current_line f) (f_pending_references f) end)).
Qed.
Lemma sim_collecting : closed -> forall b l, sim (set_collecting b l).
Proof. intros C b l. apply (sim_notes C (fun f => mkFootnotes (f_pending f) (f_emitted f) (f_reference_lines f) b l (f_pending_references f))). Qed.
Lemma sim_add_note : closed -> forall fn, sim (add_footnote fn).
Proof.
  intros C fn. apply (sim_notes C (fun f => mkFootnotes (imap_insert (fn_name fn) fn (f_pending f)) (f_emitted f) (f_reference_lines f)
      (f_collecting f) (f_current_line f) (f_pending_references f))).
Qed.

Ltac sm :=
  lazymatch goal with
  | |- sim nop => apply sim_nop
  | |- sim panic => apply sim_panic
  | |- sim (_ ;; _) => apply sim_seq
  | |- sim (get cx _) => apply sim_cx; intro
  | |- sim (emit _) => apply sim_emit
  | |- sim (log _) => apply sim_log
  | |- sim (updc _) => apply sim_updc
  | |- sim (single_block _ _) => apply sim_single; [|intro]
  | |- sim (match ?x with _ => _ end) => destruct x
  | H : sim ?a |- sim ?a => exact H
  end.
Ltac sms := repeat sm.

(** ** Code *)
Lemma try_steady : forall i j language code, try_format_code o B i language code = try_format_code o B j language code.
Proof.
  intros i j language code. unfold try_format_code. unfold steady in steadyB. destruct B as [run|[cb|]]; [|rewrite (steadyB i j); reflexivity|reflexivity].
  destruct (assoc_str language (code_formatters o)); [|reflexivity]. rewrite (steadyB i j). reflexivity.
Qed.
Lemma parts_steady : forall i j info literal, code_parts o B i info literal = code_parts o B j info literal.
Proof.
  intros i j info literal. unfold code_parts. destruct (parse_code_info info) as [[lang out] sk]. cbv zeta.
  rewrite !(try_steady i j). reflexivity.
Qed.
Lemma sim_code_block : forall q info literal, sim (code_act (fun m => code_block o B q m info literal)).
Proof. intros. apply sim_code. intros i j. unfold code_block. rewrite (parts_steady i j). reflexivity. Qed.
Lemma sim_code_indented : forall q info literal base, sim (code_act (fun m => code_block_indented o B q m info literal base)).
Proof. intros. apply sim_code. intros i j. unfold code_block_indented. rewrite (parts_steady i j). reflexivity. Qed.
Lemma sim_code_with_indent : forall info literal indent, sim (code_act (fun m => code_block_with_indent o B m info literal indent)).
Proof. intros. apply sim_code. intros i j. unfold code_block_with_indent. rewrite (parts_steady i j). reflexivity. Qed.

(** ** Blocks *)
Definition sim_kids (k : kids) : Prop := Forall (fun x => sim (snd x)) k.
Lemma sim_children : forall k, sim_kids k -> sim (children_acts k).
Proof. intros k K. apply sim_all. apply Forall_map. exact K. Qed.
Lemma sim_blockquote_children : forall k indent prefix first, sim_kids k -> sim (blockquote_children indent prefix first k).
Proof.
  induction k as [|[n a] k IH]; intros indent prefix first K; cbn [blockquote_children]; [sms|]. inversion K; subst. cbn [snd] in *. sms. apply IH; assumption.
Qed.
Lemma sim_block_quote : forall k, sim_kids k -> sim (block_quote k).
Proof. intros k K. unfold block_quote. sms. apply sim_blockquote_children; exact K. Qed.
Lemma sim_alert : forall a p k, sim_kids k -> sim (alert a p k).
Proof. intros a p k K. unfold alert. apply sim_cx. intro c. repeat apply sim_seq; sms. apply sim_block_quote; exact K. Qed.
Lemma sim_list : forall kind tight k, sim_kids k -> sim (list_block kind tight k).
Proof.
  intros kind tight k K. unfold list_block. apply sim_cx. intro c. apply sim_seq; [sms|]. apply sim_seq; [apply sim_children; exact K|]. apply sim_seq; [|sms].
  apply sim_get; [intros p s t R; rewrite (fr_cx _ _ _ R); reflexivity|]. intro d. sms.
Qed.
Lemma sim_item_children : forall base k prev, sim_kids k -> sim (item_children o B base prev k).
Proof.
  intros base. induction k as [|[n a] k IH]; intros prev K; cbn [item_children]; [sms|]. inversion K as [|? ? Ha Hk]; subst. cbn [snd] in Ha.
  apply sim_seq; [|apply IH; exact Hk]. cbv zeta. sms. apply sim_code_indented.
Qed.
Lemma sim_item : forall task k, sim_kids k -> sim (list_item o B task k).
Proof. intros task k K. unfold list_item. sms. apply sim_item_children; exact K. Qed.
Lemma sim_paragraph : forall n, sim (paragraph U ENT o src n).
Proof.
  intro n. unfold paragraph. cbv zeta. destruct (extract_source src (node_pos n)) as [source|]; [|sms].
  match goal with |- sim (match ?x with Some _ => _ | None => _ end) => destruct x end; [sms|]. apply sim_inline. intro x. sms.
Qed.
Lemma sim_heading : forall n level, sim (heading U PN ENT o src n level).
Proof.
  intros n level. apply sim_inline. intro text. apply sim_get; [|intro; sms]. intros p s t R. rewrite (fr_proper _ _ _ R), (fr_common _ _ _ R). reflexivity.
Qed.
Lemma sim_details_paragraph : forall quote marker child, sim (details_paragraph U ENT o src quote marker child).
Proof. intros. unfold details_paragraph. sms. apply sim_inline. intro. sms. Qed.
Lemma sim_with_item_indent : forall indent a, sim a -> sim (with_item_indent indent a).
Proof.
  intros indent a A. unfold with_item_indent. apply sim_get; [intros p s t R; rewrite (fr_cx _ _ _ R); reflexivity|]. intro old. sms.
Qed.
Lemma sim_details_children : forall quote k first, sim_kids k -> sim (details_children U ENT o B src quote first k).
Proof.
  intros quote. induction k as [|[n a] k IH]; intros first K; cbn [details_children]; [sms|]. inversion K as [|? ? Ha Hk]; subst. cbn [snd] in Ha.
  apply sim_seq; [|apply IH; exact Hk].
  sms; first [apply sim_with_item_indent; exact Ha | apply sim_code_with_indent | apply sim_details_paragraph].
Qed.
Lemma sim_details : forall k, sim_kids k -> sim (description_details U ENT o B src k).
Proof. intros k K. unfold description_details. apply sim_cx. intro. repeat apply sim_seq; sms. apply sim_details_children; exact K. Qed.
Lemma sim_description_list : forall k first, sim_kids k -> sim (description_list first k).
Proof.
  induction k as [|[n a] k IH]; intros first K; cbn [description_list]; [sms|]. inversion K; subst. cbn [snd] in *. apply sim_seq; [sms|]. sms. apply IH; assumption.
Qed.
Lemma sim_table : forall p aligns rows, sim (table U ENT o src p aligns rows).
Proof.
  intros p aligns rows. unfold table. destruct (is_nil rows); [sms|]. apply sim_seq; [apply sim_warn|].
  destruct (table_rows U ENT o src rows) as [[cells evs]|]; [|sms]. apply sim_seq; [|sms]. apply sim_all. apply Forall_map. apply Forall_forall. intros e _. apply sim_event.
Qed.
Lemma sim_link : forall next n url title k, sim_kids k -> sim (link U ENT o src next n url title k).
Proof.
  intros next n url title k K. unfold link. cbv zeta. sms; first [apply sim_children; exact K | apply sim_use | apply sim_inline; intro; sms].
Qed.
Lemma sim_image : forall n url title, sim (image U ENT o src n url title).
Proof. intros. apply sim_inline. intro. sms. Qed.
Lemma sim_footnote_blocks : forall k result first f, sim_kids k -> (forall x, sim (f x)) -> sim (footnote_blocks result first k f).
Proof.
  induction k as [|[n a] k IH]; intros result first f K F; cbn [footnote_blocks]; [apply F|]. inversion K; subst. apply sim_single; [assumption|]. intro x. apply IH; assumption.
Qed.
Lemma sim_footnote_definition : closed -> forall name cs k, sim_kids k -> sim (footnote_definition U ENT o src name cs k).
Proof.
  intros C name cs k K. unfold footnote_definition. apply sim_get; [intros p s t R; rewrite (closed_fr C _ _ _ R); reflexivity|]. intro line. cbv zeta.
  apply sim_seq; [apply sim_collecting; exact C|].
  assert (F : forall x b, sim (set_collecting false 0 ;; add_footnote (mkFootnote name x line b))) by (intros; apply sim_seq; [apply sim_collecting; exact C|apply sim_add_note; exact C]).
  destruct (footnote_has_blocks cs); [apply sim_footnote_blocks; [exact K|intro; apply F]|apply sim_inline; intro; apply F].
Qed.
Lemma with_next_sim : forall cs, Forall (fun c => forall nx, sim (ser nx c)) cs -> sim_kids (combine cs (with_next ser cs)).
Proof. intros cs F. induction F as [|c cs Hc F IH]; [constructor|]. cbn [with_next combine]. constructor; [apply Hc|exact IH]. Qed.
Theorem sim_serialize : forall n, no_document n = true -> no_notes n \/ closed -> forall next, sim (ser next n).
Proof.
  induction n as [v p cs IH] using node_ind'. intros D N next. cbn [no_document] in D. apply andb_prop in D. destruct D as [Dv D]. rewrite forallb_forall in D.
  assert (K : sim_kids (combine cs (with_next ser cs))).
  { apply with_next_sim. rewrite Forall_forall in *. intros c Ic nx. apply (IH c Ic); [apply D; exact Ic|]. destruct N as [N|N]; [left|right; exact N].
    intros m W. apply N. eapply within_below; eassumption. }
  assert (Own : (match v with NFootnoteDefinition _ | NFootnoteReference _ => False | _ => True end) \/ closed).
  { destruct N as [N|N]; [left; exact (N _ (within_here _))|right; exact N]. }
  cbn [serialize]. cbv zeta.
  destruct v; sms; try discriminate Dv;
    first [apply sim_children; exact K | apply sim_heading | apply sim_list; exact K | apply sim_code_block | apply sim_block_quote; exact K
          | apply sim_table | apply sim_description_list; exact K | apply sim_details; exact K | apply sim_alert; exact K | apply sim_item; exact K
          | apply sim_paragraph | apply sim_link; exact K | apply sim_image
          | destruct Own as [[]|C]; first [apply sim_footnote_definition; assumption | apply sim_record; assumption]
          | unfold thematic_break; sms].
Qed.
End Frame.
