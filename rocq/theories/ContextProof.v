(** What serializing a node does to the context. *)
From Coq Require Import Bool Arith NArith Lia ZifyBool ZifyNat ZifyN String List.
From Verif Require Import Base BaseFacts OptsModel WrapModel CodeModel TableModel HeadingModel AstModel StateModel
  InlineModel WarnModel SerModel SpecState SpecContext StateProof SerFacts SerBuilt.
Import ListNotations.

(** ** Actions that leave the context alone *)
Definition keeps_cx (a : act) : Prop := forall s s', a s = Ok s' -> cx s' = cx s.

Lemma keeps_upd : forall f, (forall s, cx (f s) = cx s) -> keeps_cx (upd f).
Proof. intros f H s s' E. injection E as <-. apply H. Qed.
Lemma keeps_nop : keeps_cx nop. Proof. intros s s' E. injection E as <-. reflexivity. Qed.
Lemma keeps_panic : keeps_cx panic. Proof. intros s s' E. discriminate. Qed.
Lemma keeps_seq : forall a b, keeps_cx a -> keeps_cx b -> keeps_cx (a ;; b).
Proof.
  intros a b Ha Hb s s' E. apply seqa_ok in E. destruct E as (m & E1 & E2).
  rewrite (Hb _ _ E2). apply Ha. exact E1.
Qed.
Lemma keeps_get : forall A (f : st -> A) k, (forall x, keeps_cx (k x)) -> keeps_cx (get f k).
Proof. intros A f k H s s' E. exact (H _ _ _ E). Qed.
Lemma keeps_all : forall l, Forall keeps_cx l -> keeps_cx (all l).
Proof. intros l H. induction H; cbn [all fold_right]; [apply keeps_nop|]. apply keeps_seq; assumption. Qed.
Lemma keeps_event : forall e, keeps_cx (do_event e).
Proof.
  intros [r|t]; apply keeps_upd; intro s; [|reflexivity]. cbv zeta. destruct (f_collecting (footnotes s)); reflexivity.
Qed.
Lemma keeps_events : forall l, keeps_cx (all (map do_event l)).
Proof. intro l. apply keeps_all. apply Forall_map. apply Forall_forall. intros x _. apply keeps_event. Qed.
Lemma keeps_inline : forall w k, (forall x, keeps_cx (k x)) -> keeps_cx (inline w k).
Proof.
  intros [[x evs]|] k H; cbn [inline]; [|apply keeps_panic]. apply keeps_seq; [apply keeps_events|apply H].
Qed.
Lemma keeps_emit : forall x, keeps_cx (emit x). Proof. intro x. apply keeps_upd. reflexivity. Qed.
Lemma keeps_log : forall x, keeps_cx (log x). Proof. intro x. apply keeps_upd. reflexivity. Qed.
Lemma keeps_code : forall f, keeps_cx (code_act f).
Proof.
  intro f. unfold code_act. apply keeps_get. intro n. destruct (f n) as [text eff].
  apply keeps_seq; [apply keeps_upd; reflexivity|]. apply keeps_seq; [apply keeps_log|apply keeps_emit].
Qed.
Lemma keeps_ensure : keeps_cx ensure_blank_line.
Proof.
  apply keeps_get. intro x. destruct (ends_with [c_nl; c_nl] x); [apply keeps_nop|].
  destruct (ends_with [c_nl] x); apply keeps_emit.
Qed.
Lemma keeps_write_reference : forall r, keeps_cx (write_reference r).
Proof.
  intro r. unfold write_reference. apply keeps_seq; [apply keeps_log|]. apply keeps_seq; [apply keeps_emit|].
  apply keeps_upd. reflexivity.
Qed.
Lemma keeps_flush_references : keeps_cx flush_references.
Proof.
  apply keeps_get. intro p. destruct (is_nil p); [apply keeps_nop|]. apply keeps_get. intro e. cbv zeta.
  apply keeps_seq; [apply keeps_upd; reflexivity|].
  match goal with |- keeps_cx (if ?x then _ else _) => destruct x end; [apply keeps_nop|].
  apply keeps_seq; [apply keeps_ensure|]. apply keeps_all. apply Forall_map. apply Forall_forall. intros r _.
  apply keeps_write_reference.
Qed.
Lemma keeps_flush_notes : forall U o checks l, keeps_cx (flush_footnotes_before U o checks l).
Proof.
  intros U o checks l. apply keeps_get. intro p. destruct (is_nil (f_pending p)); [apply keeps_nop|]. cbv zeta.
  apply keeps_seq; [apply keeps_upd; reflexivity|].
  match goal with |- keeps_cx (if ?x then _ else _) => destruct x end; [apply keeps_nop|].
  apply keeps_seq; [apply keeps_ensure|]. apply keeps_all. apply Forall_map. apply Forall_forall. intros r _.
  unfold write_footnote. destruct (footnote_text U o checks r); [|apply keeps_panic].
  apply keeps_seq; [apply keeps_log|]. apply keeps_seq; [apply keeps_emit|]. apply keeps_upd. reflexivity.
Qed.
Lemma keeps_flush_note_refs : forall l, keeps_cx (flush_footnote_references_before l).
Proof.
  intros l. apply keeps_get. intro p. destruct (is_nil (f_pending_references p)); [apply keeps_nop|]. apply keeps_get. intro e. cbv zeta.
  apply keeps_seq; [apply keeps_upd; reflexivity|].
  match goal with |- keeps_cx (if ?x then _ else _) => destruct x end; [apply keeps_nop|].
  apply keeps_seq; [apply keeps_ensure|]. apply keeps_all. apply Forall_map. apply Forall_forall. intros r _.
  apply keeps_write_reference.
Qed.
Lemma keeps_flush_all : forall U o checks l, keeps_cx (flush_all U o checks l).
Proof.
  intros. apply keeps_seq; [apply keeps_flush_notes|]. apply keeps_seq; [apply keeps_flush_references|apply keeps_flush_note_refs].
Qed.
Lemma keeps_record : forall n l, keeps_cx (record_reference_line n l).
Proof.
  intros. apply keeps_upd. intro s. cbv zeta. destruct (assoc_str n _); reflexivity.
Qed.
Lemma keeps_collect_lines : forall n, keeps_cx (collect_reference_lines n).
Proof.
  induction n as [v p cs IH] using node_ind'. cbn [collect_reference_lines]. apply keeps_seq.
  - destruct v; try apply keeps_nop. apply keeps_record.
  - apply keeps_all. apply Forall_map. exact IH.
Qed.
Lemma keeps_output_trailing : forall cs first, keeps_cx (output_trailing first cs).
Proof.
  induction cs as [|c cs IH]; intro first; cbn [output_trailing]; [apply keeps_nop|].
  destruct (node_value c); try apply IH. apply keeps_seq; [destruct first; [apply keeps_ensure|apply keeps_nop]|].
  apply keeps_seq; [apply keeps_emit|apply IH].
Qed.

(** ** Relations between the context before and after *)
Section Keep.
Variable U : Uni.
Variable PN : list (str * str).
Variable ENT : str -> option str.
Variable o : Options.
Variable B : backend.
Variable src : list str.
Variable ends_nl : bool.
Variable checks : bool.

(** [R] is for ordinary nodes, [RL] for the children of a list. *)
Variables R RL : ctx -> ctx -> Prop.
Variable strict : bool.
Hypothesis R_refl : forall c, R c c.
Hypothesis R_trans : forall a b c, R a b -> R b c -> R a c.
Hypothesis RL_trans : forall a b c, RL a b -> RL b c -> RL a c.
Hypothesis R_RL : forall a b, R a b -> RL a b.
Hypothesis RL_R : strict = false -> forall a b, RL a b -> R a b.
Hypothesis R_quote : forall c c', R (enter_blockquote c) c' -> R c (exit_blockquote c c').
Hypothesis R_list : forall kind tight cs c c', RL (enter_list kind tight cs c) c' -> R c (exit_list c c').
Hypothesis R_item : forall x c c', R (set_item_indent x c) c' -> R c (set_item_indent (list_item_indent c) c').
Hypothesis RL_item : forall c, RL c (set_index (list_item_index c + 1) c).
Hypothesis R_details : forall c c', R (set_in_details true c) c' -> R c (set_in_details (in_description_details c) c').
Hypothesis R_first : forall c c', R (set_first_list true c) c' -> R c (set_first_list false c').

Definition kr (a : act) : Prop := forall s s', a s = Ok s' -> R (cx s) (cx s').
Definition krl (a : act) : Prop := forall s s', a s = Ok s' -> RL (cx s) (cx s').

Lemma kr_keeps : forall a, keeps_cx a -> kr a.
Proof. intros a H s s' E. rewrite (H _ _ E). apply R_refl. Qed.
Lemma kr_krl : forall a, kr a -> krl a.
Proof. intros a H s s' E. apply R_RL. exact (H _ _ E). Qed.
Lemma kr_seq : forall a b, kr a -> kr b -> kr (a ;; b).
Proof.
  intros a b Ha Hb s s' E. apply seqa_ok in E. destruct E as (m & E1 & E2).
  eapply R_trans; [apply Ha; exact E1|apply Hb; exact E2].
Qed.
Lemma kr_get : forall A (f : st -> A) k, (forall x, kr (k x)) -> kr (get f k).
Proof. intros A f k H s s' E. exact (H _ _ _ E). Qed.
Lemma kr_all : forall l, Forall kr l -> kr (all l).
Proof. intros l H. induction H; cbn [all fold_right]; [apply kr_keeps, keeps_nop|]. apply kr_seq; assumption. Qed.
Lemma kr_inline : forall w k, (forall x, kr (k x)) -> kr (inline w k).
Proof.
  intros [[x evs]|] k H; cbn [inline]; [|apply kr_keeps, keeps_panic]. apply kr_seq; [apply kr_keeps, keeps_events|apply H].
Qed.
Lemma kr_single : forall a k, kr a -> (forall x, kr (k x)) -> kr (single_block a k).
Proof.
  intros a k Ha Hk. unfold single_block. apply kr_get. intro old. apply kr_seq; [apply kr_keeps, keeps_upd; reflexivity|].
  apply kr_seq; [exact Ha|]. apply kr_get. intro out. apply kr_seq; [apply kr_keeps, keeps_upd; reflexivity|apply Hk].
Qed.

Lemma updc_cx : forall f s s', updc f s = Ok s' -> cx s' = f (cx s).
Proof. intros f s s' E. injection E as <-. reflexivity. Qed.

Ltac ks :=
  lazymatch goal with
  | |- kr nop => apply kr_keeps, keeps_nop
  | |- kr panic => apply kr_keeps, keeps_panic
  | |- kr (_ ;; _) => apply kr_seq
  | |- kr (get _ _) => apply kr_get; intro
  | |- kr (emit _) => apply kr_keeps, keeps_emit
  | |- kr (log _) => apply kr_keeps, keeps_log
  | |- kr (code_act _) => apply kr_keeps, keeps_code
  | |- kr (flush_all _ _ _ _) => apply kr_keeps, keeps_flush_all
  | |- kr (record_reference_line _ _) => apply kr_keeps, keeps_record
  | |- kr (set_collecting _ _) => apply kr_keeps, keeps_upd; reflexivity
  | |- kr (add_footnote _) => apply kr_keeps, keeps_upd; reflexivity
  | |- kr (add_reference _) => apply kr_keeps; apply (keeps_event (EvUse _))
  | |- kr (upd _) => apply kr_keeps, keeps_upd; reflexivity
  | |- kr (single_block _ _) => apply kr_single; [|intro]
  | |- kr (inline _ _) => apply kr_inline; intro
  | |- kr (all (map do_event _)) => apply kr_keeps, keeps_events
  | |- kr (match ?x with _ => _ end) => destruct x
  | H : kr ?a |- kr ?a => exact H
  end.
Ltac kt := repeat ks.

Definition kr_kids (k : kids) : Prop := Forall (fun x => kr (snd x)) k.

Lemma kr_children : forall k, kr_kids k -> kr (children_acts k).
Proof. intros k H. apply kr_all. apply Forall_map. exact H. Qed.
Lemma krl_children : forall k, Forall (fun x => krl (snd x)) k -> krl (children_acts k).
Proof.
  intros k H. unfold children_acts. induction H as [|x k Hx H IH]; cbn [map all fold_right].
  - apply kr_krl. kt.
  - intros s s' E. apply seqa_ok in E. destruct E as (m & E1 & E2).
    eapply RL_trans; [apply Hx; exact E1|apply IH; exact E2].
Qed.
Lemma kr_blockquote_children : forall k indent prefix first, kr_kids k -> kr (blockquote_children indent prefix first k).
Proof.
  induction k as [|[n a] k IH]; intros indent prefix first H; cbn [blockquote_children]; [kt|].
  inversion H; subst. cbn [snd] in *. kt. apply IH. assumption.
Qed.
Lemma kr_block_quote : forall k, kr_kids k -> kr (block_quote k).
Proof.
  intros k H s s' E. unfold block_quote, get in E. apply seqa_ok in E. destruct E as (m & E1 & E).
  apply seqa_ok in E. destruct E as (m2 & E2 & E3). rewrite (updc_cx _ _ _ E3). apply R_quote.
  rewrite <- (updc_cx _ _ _ E1). eapply kr_blockquote_children; eassumption.
Qed.
Lemma kr_alert : forall a p k, kr_kids k -> kr (alert a p k).
Proof.
  intros a p k H. unfold alert. apply kr_get. intro. apply kr_seq; [kt|]. apply kr_seq; [kt|]. apply kr_block_quote; exact H.
Qed.
Lemma kr_list : forall kind tight k, Forall (fun x => krl (snd x)) k -> kr (list_block kind tight k).
Proof.
  intros kind tight k H s s' E. unfold list_block, get in E. apply seqa_ok in E. destruct E as (m & E1 & E).
  apply seqa_ok in E. destruct E as (m2 & E2 & E). apply seqa_ok in E. destruct E as (m3 & E3 & E4).
  rewrite (updc_cx _ _ _ E4). assert (M : m3 = m2).
  { destruct (list_depth (cx m2) =? 0); [discriminate|]. injection E3 as <-. reflexivity. }
  subst m3. eapply R_list. rewrite <- (updc_cx _ _ _ E1). eapply krl_children; eassumption.
Qed.
Lemma kr_item_children : forall base k prev, kr_kids k -> kr (item_children o B base prev k).
Proof.
  intros base. induction k as [|[n a] k IH]; intros prev H; cbn [item_children]; [kt|].
  inversion H as [|? ? Ha Hk]; subst. cbn [snd] in Ha. apply kr_seq; [|apply IH; exact Hk]. cbv zeta. kt.
Qed.
(** An item, once its index is set. *)
Definition item_body (task : option (option char)) (k : kids) : act :=
  get cx (fun c =>
    emit (item_head o c task) ;;
    match item_base_indent o c with
    | Panic => panic
    | Ok base =>
        updc (set_item_indent base) ;;
        item_children o B base None k ;;
        updc (set_item_indent (list_item_indent c)) ;;
        (match last_child k with
         | Some n => if ends_with_newline_kind n then nop else emit [c_nl]
         | None => emit [c_nl]
         end)
    end).
Lemma list_item_body : forall task k,
  list_item o B task k = updc (fun c => set_index (list_item_index c + 1) c) ;; item_body task k.
Proof. reflexivity. Qed.
Lemma kr_item_body : forall task k, kr_kids k -> kr (item_body task k).
Proof.
  intros task k H s s' E. unfold item_body, get in E. apply seqa_ok in E. destruct E as (m & E1 & E).
  destruct (item_base_indent o (cx s)) as [base|]; [|discriminate].
  apply seqa_ok in E. destruct E as (m2 & E2 & E). apply seqa_ok in E. destruct E as (m3 & E3 & E).
  apply seqa_ok in E. destruct E as (m4 & E4 & E5).
  assert (K : cx s' = cx m4).
  { revert E5. destruct (last_child k) as [n|]; [destruct (ends_with_newline_kind n)|]; intro E5;
      first [apply (keeps_nop _ _ E5) | apply (keeps_emit _ _ _ E5)]. }
  rewrite K, (updc_cx _ _ _ E4). apply R_item with base.
  rewrite <- (keeps_emit _ _ _ E1), <- (updc_cx _ _ _ E2). eapply kr_item_children; eassumption.
Qed.
Lemma krl_item : forall task k, kr_kids k -> krl (list_item o B task k).
Proof.
  intros task k H s s' E. rewrite list_item_body in E. apply seqa_ok in E. destruct E as (m & E1 & E2).
  eapply RL_trans; [apply RL_item|]. rewrite <- (updc_cx _ _ _ E1). apply R_RL. eapply kr_item_body; eassumption.
Qed.
Lemma kr_paragraph : forall n, kr (paragraph U ENT o src n).
Proof.
  intro n. unfold paragraph. cbv zeta. destruct (extract_source src (node_pos n)) as [source|]; [|kt].
  match goal with |- kr (match ?x with Some _ => _ | None => _ end) => destruct x end; kt.
Qed.
Lemma kr_with_item_indent : forall indent a, kr a -> kr (with_item_indent indent a).
Proof.
  intros indent a H s s' E. unfold with_item_indent, get in E. apply seqa_ok in E. destruct E as (m & E1 & E).
  apply seqa_ok in E. destruct E as (m2 & E2 & E3). rewrite (updc_cx _ _ _ E3). apply R_item with indent.
  rewrite <- (updc_cx _ _ _ E1). apply H. exact E2.
Qed.
Lemma kr_first_list : forall a, kr a -> kr (updc (set_first_list true) ;; a ;; updc (set_first_list false)).
Proof.
  intros a H s s' E. apply seqa_ok in E. destruct E as (m & E1 & E).
  apply seqa_ok in E. destruct E as (m2 & E2 & E3). rewrite (updc_cx _ _ _ E3). apply R_first.
  rewrite <- (updc_cx _ _ _ E1). apply H. exact E2.
Qed.
Lemma kr_details_children : forall quote k first, kr_kids k -> kr (details_children U ENT o B src quote first k).
Proof.
  intros quote. induction k as [|[n a] k IH]; intros first H; cbn [details_children]; [kt|].
  inversion H as [|? ? Ha Hk]; subst. cbn [snd] in Ha. apply kr_seq; [|apply IH; exact Hk].
  unfold details_paragraph. destruct first.
  - destruct (node_value n); try solve [kt];
      (apply kr_seq; [kt|first [apply kr_with_item_indent; exact Ha|apply kr_first_list; exact Ha]]).
  - apply kr_seq; [kt|]. destruct (node_value n); try solve [kt]; apply kr_with_item_indent; exact Ha.
Qed.
Lemma kr_details : forall k, kr_kids k -> kr (description_details U ENT o B src k).
Proof.
  intros k H s s' E. unfold description_details, get in E. apply seqa_ok in E. destruct E as (m & E1 & E).
  apply seqa_ok in E. destruct E as (m2 & E2 & E3). rewrite (updc_cx _ _ _ E3). apply R_details.
  rewrite <- (updc_cx _ _ _ E1). eapply kr_details_children; eassumption.
Qed.
Lemma kr_description_list : forall k first, kr_kids k -> kr (description_list first k).
Proof.
  induction k as [|[n a] k IH]; intros first H; cbn [description_list]; [kt|]. inversion H; subst. cbn [snd] in *.
  apply kr_seq; [kt|]. kt. apply IH; assumption.
Qed.
Lemma kr_table : forall p aligns rows, kr (table U ENT o src p aligns rows).
Proof. intros. unfold table. kt. Qed.
Lemma kr_link : forall next n url title k, kr_kids k -> kr (link U ENT o src next n url title k).
Proof. intros next n url title k H. unfold link. cbv zeta. kt; apply kr_children; exact H. Qed.
Lemma kr_footnote_blocks : forall k result first f, kr_kids k -> (forall x, kr (f x)) ->
  kr (footnote_blocks result first k f).
Proof.
  induction k as [|[n a] k IH]; intros result first f H Hf; cbn [footnote_blocks]; [apply Hf|].
  inversion H; subst. apply kr_single; [assumption|]. intro x. apply IH; assumption.
Qed.
Lemma kr_footnote_definition : forall name cs k, kr_kids k -> kr (footnote_definition U ENT o src name cs k).
Proof.
  intros name cs k H. unfold footnote_definition. apply kr_get. intro line. cbv zeta. apply kr_seq; [kt|].
  destruct (footnote_has_blocks cs); [|kt]. apply kr_footnote_blocks; [exact H|]. intro. kt.
Qed.
Lemma kr_document_block : forall prev child a, kr a -> kr (document_block U o src checks prev child a).
Proof. intros prev child a H. unfold document_block. cbv zeta. apply kr_seq; kt. Qed.
Lemma kr_directive : forall prev child literal d, kr (directive_act U o checks prev child literal d).
Proof. intros prev child literal d. unfold directive_act. cbv zeta. destruct d; kt. Qed.
Lemma kr_document_loop : forall k ts prev finish, kr_kids k -> kr finish ->
  kr (document_loop U o src ends_nl checks ts prev k finish).
Proof.
  induction k as [|[n a] k IH]; intros ts prev finish H Hf; cbn [document_loop]; [exact Hf|].
  inversion H as [|? ? Ha Hk]; subst. cbn [snd] in Ha.
  pose proof (IH (ts - 1) (Some n) finish Hk Hf) as C. cbv zeta.
  destruct ((ts =? 0) && is_html_block n); [exact C|]. destruct (is_footnote_def n); [exact C|].
  assert (D : kr (document_block U o src checks prev n a ;; document_loop U o src ends_nl checks (ts - 1) (Some n) k finish))
    by (apply kr_seq; [apply kr_document_block; exact Ha|exact C]).
  destruct (node_value n); try exact D. destruct (directive_of n) as [d|]; [|exact D].
  destruct d; try (apply kr_seq; [apply kr_directive|exact C]). unfold disable_file. kt.
Qed.
Lemma kr_document : forall n k, kr_kids k -> kr (document U o src ends_nl checks n k).
Proof.
  intros n k H. unfold document. cbv zeta. destruct (check_undefined checks src n) as [ws|]; [|kt].
  apply kr_seq; [kt|]. apply kr_seq; [apply kr_keeps, keeps_collect_lines|]. apply kr_seq.
  - apply kr_all. apply Forall_map. eapply Forall_impl; [|exact H]. intros [m a] Ha. cbn [fst snd] in *. kt.
  - apply kr_document_loop; [exact H|]. apply kr_seq; [kt|apply kr_keeps, keeps_output_trailing].
Qed.

Lemma with_next_kids : forall (P : act -> Prop) (f : option node -> node -> act) cs,
  Forall (fun c => forall nx, P (f nx c)) cs -> Forall (fun x => P (snd x)) (combine cs (with_next f cs)).
Proof.
  intros P f cs H. induction H as [|c cs Hc H IH]; [constructor|]. cbn [with_next combine]. constructor; [apply Hc|exact IH].
Qed.

Theorem kr_serialize : forall n next,
  ((strict = true -> well_placed false n = true) -> kr (serialize U PN ENT o B src ends_nl checks next n))
  /\ ((strict = true -> well_placed true n = true) -> krl (serialize U PN ENT o B src ends_nl checks next n)).
Proof.
  induction n as [v p cs IH] using node_ind'. intro next.
  set (ser := serialize U PN ENT o B src ends_nl checks) in *.
  (* the kids of a node that is not a list *)
  assert (K : (strict = true -> forallb (well_placed (is_list_kind v)) cs = true) -> is_list_kind v = false ->
              kr_kids (combine cs (with_next ser cs))).
  { intros W L. rewrite L in W. apply with_next_kids. rewrite Forall_forall in *. intros c Hc nx.
    apply (IH c Hc nx). intro S. specialize (W S). rewrite forallb_forall in W. exact (W c Hc). }
  assert (KL : (strict = true -> forallb (well_placed (is_list_kind v)) cs = true) -> is_list_kind v = true ->
              Forall (fun x => krl (snd x)) (combine cs (with_next ser cs))).
  { intros W L. rewrite L in W. apply with_next_kids. rewrite Forall_forall in *. intros c Hc nx.
    apply (IH c Hc nx). intro S. specialize (W S). rewrite forallb_forall in W. exact (W c Hc). }
  assert (Main : (strict = true -> forallb (well_placed (is_list_kind v)) cs = true) ->
     (is_item v = false -> kr (ser next (Node v p cs))) /\ (is_item v = true -> krl (ser next (Node v p cs)))).
  { intro W. specialize (K W). specialize (KL W). unfold ser at 1 2. cbn [serialize]. fold ser. cbv zeta.
    destruct v; cbn [is_item is_list_kind] in *; (split; [intro I|intro I]); try discriminate I;
      try specialize (K eq_refl); try specialize (KL eq_refl);
      first [ apply kr_document; exact K | apply kr_block_quote; exact K | apply kr_list; exact KL
          | apply krl_item; exact K | apply kr_description_list; exact K | apply kr_details; exact K
          | apply kr_paragraph | apply kr_footnote_definition; exact K | apply kr_table
          | apply kr_link; exact K | apply kr_alert; exact K | apply kr_children; exact K
          | idtac ]; unfold heading, image, thematic_break; kt; apply kr_children; exact K. }
  split; intro W.
  - destruct strict eqn:S.
    + specialize (W eq_refl). cbn [well_placed] in W. apply andb_true_iff in W. destruct W as [W1 W2].
      rewrite orb_false_r, negb_true_iff in W1. apply Main; [intros _; exact W2|exact W1].
    + destruct (Main ltac:(discriminate)) as [M1 M2]. destruct (is_item v); [|apply M1; reflexivity].
      intros s s' E. apply (RL_R eq_refl). exact (M2 eq_refl s s' E).
  - assert (W2 : strict = true -> forallb (well_placed (is_list_kind v)) cs = true).
    { intro S. specialize (W S). cbn [well_placed] in W. apply andb_true_iff in W. apply W. }
    destruct (Main W2) as [M1 M2]. destruct (is_item v); [apply M2; reflexivity|]. apply kr_krl. apply M1. reflexivity.
Qed.
End Keep.
