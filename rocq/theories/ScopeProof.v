(** Settings of a section do not matter where its construct does not occur
    (C54, C55): two runs with such options are the same. *)
From Coq Require Import Bool Arith NArith Lia ZifyBool ZifyNat ZifyN String List.
From Verif Require Import Base BaseFacts OptsModel WrapModel CodeModel TableModel HeadingModel AstModel StateModel
  InlineModel WarnModel SerModel SpecContext SpecScope StateProof SerFacts ContextProof PropsContext.
Import ListNotations.

Ltac options a b H sec := destruct H as [? ? ? ? ? ? ? ? ? ? ? ? ? ? ? ? ? ? ? ? ? ? ? ? ? ? ?]; destruct a, b; cbn in *; subst;
  destruct sec; repeat match goal with X : ?s <> ?t -> _ |- _ => first [specialize (X ltac:(discriminate)); subst | clear X] end.

Section Scope.
Variable U : Uni.
Variable PN : list (str * str).
Variable ENT : str -> option str.
Variable a b : Options.
Variable B : backend.
Variable src : list str.
Variable ends_nl : bool.
Variable checks : bool.
Variable sec : section.
Hypothesis H : only_in sec a b.
Notation sera := (serialize U PN ENT a B src ends_nl checks).
Notation serb := (serialize U PN ENT b B src ends_nl checks).

(** ** What is the same under both options *)
Lemma E_inline : collect_inline U ENT a src = collect_inline U ENT b src.
Proof. clear - H. options a b H sec; reflexivity. Qed.
Lemma E_content : inline_content U ENT a src = inline_content U ENT b src.
Proof. clear - H. options a b H sec; reflexivity. Qed.
Lemma E_text : collect_text U ENT a src = collect_text U ENT b src.
Proof. clear - H. options a b H sec; reflexivity. Qed.
Lemma E_flush : flush_all U a checks = flush_all U b checks.
Proof. clear - H. options a b H sec; reflexivity. Qed.
Lemma E_table : table U ENT a src = table U ENT b src.
Proof. clear - H. options a b H sec; reflexivity. Qed.
Lemma E_image : image U ENT a src = image U ENT b src.
Proof. clear - H. options a b H sec; reflexivity. Qed.
Lemma E_details : details_paragraph U ENT a src = details_paragraph U ENT b src.
Proof. clear - H. options a b H sec; reflexivity. Qed.
Lemma E_directive : directive_act U a checks = directive_act U b checks.
Proof. clear - H. options a b H sec; reflexivity. Qed.
Lemma E_disable : disable_file U a src ends_nl checks = disable_file U b src ends_nl checks.
Proof. clear - H. options a b H sec; reflexivity. Qed.
Lemma E_heading : sec <> Headings -> heading U PN ENT a src = heading U PN ENT b src.
Proof. clear - H. intro N. options a b H sec; try reflexivity. contradiction. Qed.
Lemma E_rule : sec <> Rules -> thematic_break a = thematic_break b.
Proof. clear - H. intro N. options a b H sec; try reflexivity. contradiction. Qed.
Lemma E_code : sec <> CodeBlocks -> code_block a B = code_block b B /\ code_block_indented a B = code_block_indented b B
  /\ code_block_with_indent a B = code_block_with_indent b B.
Proof. clear - H. intro N. options a b H sec; try (repeat split; reflexivity). contradiction. Qed.

(** Where something is written: the kind of the list, and whether in details. *)
Definition view (c : ctx) : option list_kind * bool := (list_type c, in_description_details c).
(** The bullet settings are used for items outside lists too, and for lists in
    details. *)
Definition apart_from (v : option list_kind * bool) : Prop :=
  match sec with
  | BulletLists => fst v = Some Ordered /\ snd v = false
  | OrderedLists => fst v <> Some Ordered
  | _ => True
  end.
Definition outside (v : option list_kind * bool) : Prop :=
  match sec with
  | BulletLists => fst v = None \/ (fst v = Some Ordered /\ snd v = false)
  | OrderedLists => fst v <> Some Ordered
  | _ => True
  end.
Lemma E_head : forall c task, apart_from (view c) -> item_head a c task = item_head b c task.
Proof.
  clear - H. intros c task A. unfold apart_from, view in A. unfold item_head, item_marker, item_indent_width.
  options a b H sec; cbn [fst snd] in A; try reflexivity.
  - destruct A as [-> _]. reflexivity.
  - destruct (list_type c) as [[|]|]; try reflexivity. exfalso. apply A. reflexivity.
Qed.
Lemma E_base : forall c, apart_from (view c) -> item_base_indent a c = item_base_indent b c.
Proof.
  clear - H. intros c A. unfold apart_from, view in A. unfold item_base_indent, marker_width, item_indent_width.
  options a b H sec; cbn [fst snd] in A; try reflexivity.
  - destruct A as [-> _]. reflexivity.
  - destruct (list_type c) as [[|]|]; try reflexivity. exfalso. apply A. reflexivity.
Qed.
Lemma E_continuation : forall c, apart_from (view c) -> paragraph_continuation a c = paragraph_continuation b c.
Proof.
  clear - H. intros c A. unfold apart_from, view in A. unfold paragraph_continuation.
  options a b H sec; cbn [fst snd] in A; try reflexivity. destruct A as [_ ->]. reflexivity.
Qed.

(** ** Runs from states seen alike *)
Definition agree (v : option list_kind * bool) (x y : act) : Prop := forall s, view (cx s) = v -> x s = y s.
Definition keeps (x : act) : Prop := forall s s', x s = Ok s' -> view (cx s') = view (cx s).
Lemma agree_seq : forall v w x y x' y', agree v x x' -> (forall s s', view (cx s) = v -> x s = Ok s' -> view (cx s') = w) ->
  agree w y y' -> agree v (x ;; y) (x' ;; y').
Proof.
  intros v w x y x' y' A K A' s V. unfold seqa. rewrite <- (A s V). destruct (x s) as [s'|] eqn:E; [|reflexivity]. apply A'. exact (K s s' V E).
Qed.
Lemma agree_same : forall v x x' y y', agree v x x' -> keeps x -> agree v y y' -> agree v (x ;; y) (x' ;; y').
Proof. intros v x x' y y' A K A'. apply (agree_seq v v); [exact A| |exact A']. intros s s' V E. rewrite (K _ _ E). exact V. Qed.
Lemma agree_refl : forall v x, agree v x x. Proof. intros v x s _. reflexivity. Qed.
Lemma agree_get : forall v A (f : st -> A) k k', (forall s, view (cx s) = v -> agree v (k (f s)) (k' (f s))) -> agree v (get f k) (get f k').
Proof. intros v A f k k' G s V. unfold get. apply (G s V). exact V. Qed.
Lemma keeps_emit : forall x, keeps (emit x). Proof. intros x s s' E. injection E as <-. reflexivity. Qed.
Lemma keeps_nop : keeps nop. Proof. intros s s' E. injection E as <-. reflexivity. Qed.
Lemma keeps_seq : forall x y, keeps x -> keeps y -> keeps (x ;; y).
Proof. intros x y X Y s s' E. apply seqa_ok in E. destruct E as (m & E1 & E2). rewrite (Y _ _ E2). exact (X _ _ E1). Qed.
Lemma keeps_get : forall A (f : st -> A) k, (forall x, keeps (k x)) -> keeps (get f k).
Proof. intros A f k K s s' E. exact (K _ _ _ E). Qed.
Lemma keeps_cx_view : forall x, keeps_cx x -> keeps x.
Proof. intros x K s s' E. unfold view. rewrite (K _ _ E). reflexivity. Qed.
Lemma keeps_ser : forall next n, keeps (sera next n).
Proof. intros next n s s' E. apply serialize_same_place in E. unfold view. rewrite (sp_type _ _ E), (sp_details _ _ E). reflexivity. Qed.

Definition kin (v : option list_kind * bool) (k l : kids) : Prop :=
  Forall2 (fun x y => fst x = fst y /\ agree v (snd x) (snd y) /\ keeps (snd x)) k l.
Lemma kin_kids : forall v cs, Forall (fun c => forall next, agree v (sera next c) (serb next c)) cs ->
  kin v (combine cs (with_next sera cs)) (combine cs (with_next serb cs)).
Proof.
  intros v cs F. induction F as [|c cs Hc F IH]; [constructor|]. cbn [with_next combine]. constructor; [|exact IH].
  split; [reflexivity|]. split; [apply Hc|apply keeps_ser].
Qed.
Lemma kin_fst : forall v k l, kin v k l -> map fst k = map fst l.
Proof. intros v k l K. induction K as [|x y k l (E & _) K IH]; [reflexivity|]. cbn [map]. rewrite E, IH. reflexivity. Qed.
Lemma kin_children : forall v k l, kin v k l -> agree v (children_acts k) (children_acts l).
Proof.
  intros v k l K. induction K as [|x y k l (_ & A & P) K IH]; [apply agree_refl|].
  change (agree v (snd x ;; children_acts k) (snd y ;; children_acts l)). apply agree_same; assumption.
Qed.
Lemma kin_quote : forall v k l, kin v k l -> forall indent prefix first, agree v (blockquote_children indent prefix first k) (blockquote_children indent prefix first l).
Proof.
  intros v k l K. induction K as [|[n x] [m y] k l (_ & A & P) K IH]; intros indent prefix first; [apply agree_refl|]. cbn [blockquote_children].
  apply agree_same; [apply agree_refl|destruct first; [apply keeps_nop|apply keeps_emit]|]. apply agree_same; [exact A|exact P|apply IH].
Qed.
Lemma kin_block_quote : forall v k l, kin (None, snd v) k l -> agree v (block_quote k) (block_quote l).
Proof.
  intros v k l K s V. unfold block_quote, get. apply (agree_seq v (None, snd v)) with (s := s); [apply agree_refl| | |exact V].
  - intros x y Vx E. injection E as <-. rewrite <- Vx. reflexivity.
  - intros x Vx. unfold seqa. rewrite <- (kin_quote _ _ _ K _ _ _ x Vx). reflexivity.
Qed.
Lemma kin_alert : forall v k l t p, kin (None, snd v) k l -> agree v (alert t p k) (alert t p l).
Proof.
  intros v k l t p K. unfold alert. apply agree_get. intros s V. apply agree_same; [apply agree_refl|apply keeps_emit|].
  assert (Z : (match k with (first, _) :: _ => if start_line p + 1 <? start_line (node_pos first)
        then emit (list_item_indent (cx s) ++ blockquote_prefix (cx s) ++ lit ">" ++ [c_nl]) else nop | [] => nop end)
      = (match l with (first, _) :: _ => if start_line p + 1 <? start_line (node_pos first)
        then emit (list_item_indent (cx s) ++ blockquote_prefix (cx s) ++ lit ">" ++ [c_nl]) else nop | [] => nop end)).
  { destruct K as [|[n x] [m y] k l (E & _) K]; [reflexivity|]. cbn [fst] in E. subst m. reflexivity. }
  rewrite <- Z. apply agree_same; [apply agree_refl| |apply kin_block_quote; exact K].
  destruct k as [|[n x] k]; [apply keeps_nop|]. destruct (_ <? _); [apply keeps_emit|apply keeps_nop].
Qed.
Lemma kin_list : forall v kind tight k l, kin (Some kind, snd v) k l -> agree v (list_block kind tight k) (list_block kind tight l).
Proof.
  intros v kind tight k l K s V. unfold list_block, get. rewrite <- (kin_fst _ _ _ K).
  apply (agree_seq v (Some kind, snd v)) with (s := s); [apply agree_refl| | |exact V].
  - intros x y Vx E. injection E as <-. rewrite <- Vx. reflexivity.
  - intros x Vx. unfold seqa. rewrite <- (kin_children _ _ _ K x Vx). reflexivity.
Qed.
(** No code stands there if the settings of code differ. *)
Definition codeless (n : node) : Prop := sec = CodeBlocks -> forall i l, node_value n <> NCodeBlock i l.
Definition calm (k : kids) : Prop := Forall (fun x => codeless (fst x)) k.
Lemma keeps_code : forall f, keeps (code_act f).
Proof. intros f s s' E. unfold code_act, get in E. destruct (f _) as [text eff]. injection E as <-. reflexivity. Qed.
Ltac staying := repeat first [assumption | apply keeps_emit | apply keeps_nop | apply keeps_code | apply keeps_seq
  | apply keeps_get; intro | match goal with |- keeps (match ?x with _ => _ end) => destruct x end ].
Ltac alike := repeat first [assumption | apply agree_refl | apply agree_same; [| solve [staying] |] | apply agree_get; intros ? ?].
Lemma code_dec : sec <> CodeBlocks \/ sec = CodeBlocks.
Proof. destruct sec; auto; left; discriminate. Qed.
Lemma kin_item_children : forall v k l, kin v k l -> calm k -> forall base prev, agree v (item_children a B base prev k) (item_children b B base prev l).
Proof.
  intros v k l K. induction K as [|[n x] [m y] k l (E & A & P) K IH]; intros C base prev; [apply agree_refl|]. cbn [item_children fst snd] in *. subst m.
  inversion C as [|? ? Cn Ck]; subst. cbn [fst] in Cn. cbv zeta.
  apply agree_same; [| |apply IH; exact Ck].
  - destruct (node_value n) eqn:V; try solve [alike].
    destruct code_dec as [N|N]; [|exfalso; exact (Cn N _ _ V)]. destruct (E_code N) as (_ & -> & _). apply agree_refl.
  - destruct (node_value n) eqn:V; staying.
Qed.
Lemma last_kin : forall v k l, kin v k l -> last_child k = last_child l.
Proof.
  intros v k l K. induction K as [|[n x] [m y] k l (E & _) K IH]; [reflexivity|]. cbn [fst] in E. subst m. cbn [last_child].
  destruct K as [|x' y' k l ? K]; [reflexivity|exact IH].
Qed.
Lemma kin_item : forall v task k l, apart_from v -> kin v k l -> calm k -> agree v (list_item a B task k) (list_item b B task l).
Proof.
  intros v task k l A K C. unfold list_item. rewrite <- (last_kin _ _ _ K). apply agree_same; [apply agree_refl| |].
  { intros s s' E. injection E as <-. reflexivity. }
  apply agree_get. intros s V. rewrite <- V in A. rewrite <- (E_head _ _ A), <- (E_base _ A). apply agree_same; [apply agree_refl|apply keeps_emit|].
  destruct (item_base_indent a (cx s)) as [base|]; [|apply agree_refl].
  apply agree_same; [apply agree_refl| |].
  { intros x y E. injection E as <-. reflexivity. }
  intros x Vx. unfold seqa. rewrite <- (kin_item_children _ _ _ K C _ _ x Vx). reflexivity.
Qed.
Lemma kin_details_children : forall v k l, kin v k l -> calm k -> forall quote first,
  agree v (details_children U ENT a B src quote first k) (details_children U ENT b B src quote first l).
Proof.
  assert (W : forall v x y indent, agree v x y -> agree v (with_item_indent indent x) (with_item_indent indent y)).
  { intros v x y indent A. unfold with_item_indent. apply agree_get. intros s V. apply agree_same; [apply agree_refl| |].
    - intros p q E. injection E as <-. reflexivity.
    - intros p Vp. unfold seqa. rewrite <- (A p Vp). reflexivity. }
  assert (Kw : forall x indent, keeps x -> keeps (with_item_indent indent x)).
  { intros x indent P. unfold with_item_indent. apply keeps_get. intro. repeat apply keeps_seq; try exact P; intros p q E; injection E as <-; reflexivity. }
  assert (Kp : forall quote marker n, keeps (details_paragraph U ENT a src quote marker n)).
  { intros quote marker n. unfold details_paragraph. apply keeps_seq; [apply keeps_emit|]. apply keeps_cx_view. apply ContextProof.keeps_inline. intro w. apply ContextProof.keeps_emit. }
  intros v k l K. induction K as [|[n x] [m y] k l (E & A & P) K IH]; intros C quote first; [apply agree_refl|]. cbn [details_children fst snd] in *. subst m.
  inversion C as [|? ? Cn Ck]; subst. cbn [fst] in Cn. rewrite <- E_details.
  apply agree_same; [| |apply IH; exact Ck].
  - destruct first.
    + destruct (node_value n) eqn:V; try (apply agree_same; [apply agree_refl|apply keeps_emit|exact A]); try apply agree_refl;
        try (apply agree_same; [apply agree_refl|apply keeps_emit|apply W; exact A]).
      * apply agree_same; [apply agree_refl|apply keeps_emit|]. apply agree_same; [apply agree_refl| |].
        { intros p q E. injection E as <-. reflexivity. }
        intros p Vp. unfold seqa. rewrite <- (A p Vp). reflexivity.
      * destruct code_dec as [N|N]; [|exfalso; exact (Cn N _ _ V)]. destruct (E_code N) as (_ & _ & ->). apply agree_refl.
    + apply agree_same; [apply agree_refl|apply keeps_emit|].
      destruct (node_value n) eqn:V; try (apply agree_same; [apply agree_refl|apply keeps_emit|exact A]); try apply agree_refl; try exact A; try (apply W; exact A).
      destruct code_dec as [N|N]; [|exfalso; exact (Cn N _ _ V)]. destruct (E_code N) as (_ & _ & ->). apply agree_refl.
  - destruct first; [|apply keeps_seq; [apply keeps_emit|]];
      (destruct (node_value n) eqn:V; try apply Kp; try exact P; try (apply Kw; exact P);
       repeat apply keeps_seq; try apply keeps_emit; try apply keeps_code; try exact P; try (apply Kw; exact P); intros p q E; injection E as <-; reflexivity).
Qed.
Lemma kin_details : forall v k l, kin (fst v, true) k l -> calm k -> agree v (description_details U ENT a B src k) (description_details U ENT b B src l).
Proof.
  intros v k l K C. unfold description_details. apply agree_get. intros s V. apply (agree_seq v (fst v, true)); [apply agree_refl| |].
  - intros x y Vx E. injection E as <-. rewrite <- Vx. reflexivity.
  - intros x Vx. unfold seqa. rewrite <- (kin_details_children _ _ _ K C _ _ x Vx). reflexivity.
Qed.
Lemma kin_description_list : forall v k l, kin v k l -> forall first, agree v (description_list first k) (description_list first l).
Proof.
  intros v k l K. induction K as [|[n x] [m y] k l (_ & A & P) K IH]; intros first; [apply agree_refl|]. cbn [description_list].
  apply agree_same; [apply agree_refl| |apply agree_same; [exact A|exact P|apply IH]].
  destruct first; [apply keeps_nop|]. apply keeps_get. intro c. destruct (in_block_quote c); apply keeps_emit.
Qed.
Lemma kin_blocks : forall v k l f, kin v k l -> forall result first, agree v (footnote_blocks result first k f) (footnote_blocks result first l f).
Proof.
  intros v k l f K. induction K as [|[n x] [m y] k l (_ & A & P) K IH]; intros result first; [apply agree_refl|]. cbn [footnote_blocks].
  unfold single_block. apply agree_get. intros s V. cbn [snd] in *.
  apply agree_same; [apply agree_refl| |]. { intros p q E. injection E as <-. reflexivity. }
  apply agree_same; [exact A|exact P|]. apply agree_get. intros t Vt.
  apply agree_same; [apply agree_refl| |apply IH]. intros p q E. injection E as <-. reflexivity.
Qed.
Lemma kin_note : forall v name cs k l, kin v k l -> agree v (footnote_definition U ENT a src name cs k) (footnote_definition U ENT b src name cs l).
Proof.
  intros v name cs k l K. unfold footnote_definition. apply agree_get. intros s V. cbv zeta. apply agree_same; [apply agree_refl| |].
  { intros p q E. injection E as <-. reflexivity. }
  rewrite <- E_inline. destruct (footnote_has_blocks cs); [apply kin_blocks; exact K|apply agree_refl].
Qed.
Lemma kin_link : forall v next n url title k l, kin v k l -> agree v (link U ENT a src next n url title k) (link U ENT b src next n url title l).
Proof.
  intros v next n url title k l K. unfold link. rewrite <- (kin_fst _ _ _ K), <- E_text. cbv zeta.
  assert (Z : forall x y, agree v (emit x ;; children_acts k ;; y) (emit x ;; children_acts l ;; y)).
  { intros x y. apply agree_same; [apply agree_refl|apply keeps_emit|]. intros p Vp. unfold seqa. rewrite <- (kin_children _ _ _ K p Vp). reflexivity. }
  destruct (reference_style_of src (node_pos n)) as [[[text label]|]|]; [..|apply agree_refl].
  - destruct (existsb is_image (map fst k)); [apply Z|apply agree_refl].
  - destruct (existsb is_image (map fst k)); [apply Z|apply agree_refl].
Qed.
Lemma keeps_flush : forall before, keeps (flush_all U a checks before).
Proof. intro l. apply keeps_cx_view. apply ContextProof.keeps_flush_all. Qed.
Lemma keeps_directive : forall prev n l d, keeps (directive_act U a checks prev n l d).
Proof.
  intros prev n l d. unfold directive_act. cbv zeta.
  destruct d; try apply keeps_nop; repeat (apply keeps_seq; [first [apply keeps_flush | apply keeps_cx_view; apply keeps_upd; reflexivity]|]); apply keeps_emit.
Qed.
Lemma kin_block : forall v prev n x y, agree v x y -> keeps x ->
  agree v (document_block U a src checks prev n x) (document_block U b src checks prev n y) /\ keeps (document_block U a src checks prev n x).
Proof.
  intros v prev n x y A P. unfold document_block. rewrite <- E_flush.
  assert (K1 : keeps (match heading_level n, prev with
     | Some 2, Some _ | Some 3, Some _ => flush_all U a checks (Some (start_line (node_pos n))) | _, _ => nop end)).
  { destruct (heading_level n) as [[|[|[|[|h]]]]|]; try apply keeps_nop; (destruct prev; [apply keeps_flush|apply keeps_nop]). }
  split.
  - apply agree_same; [apply agree_refl|exact K1|]. apply agree_same; [apply agree_refl|apply keeps_emit|]. apply agree_get. intros s V. cbv zeta.
    assert (A' : agree v (match extract_source src (node_pos n) with Panic => panic | Ok (Some source) => emit (source ++ [c_nl]) | Ok None => x end)
      (match extract_source src (node_pos n) with Panic => panic | Ok (Some source) => emit (source ++ [c_nl]) | Ok None => y end)).
    { destruct (extract_source src (node_pos n)) as [[source|]|]; [apply agree_refl|exact A|apply agree_refl]. }
    destruct (skip s); try assumption.
    + apply agree_same; [apply agree_refl| |exact A']. intros p q E. injection E as <-. reflexivity.
    + destruct (is_section_heading n); [|exact A']. apply agree_same; [apply agree_refl| |exact A]. intros p q E. injection E as <-. reflexivity.
  - apply keeps_seq; [exact K1|]. apply keeps_seq; [apply keeps_emit|]. apply keeps_get. intro m. cbv zeta.
    assert (P' : keeps (match extract_source src (node_pos n) with Panic => panic | Ok (Some source) => emit (source ++ [c_nl]) | Ok None => x end)).
    { destruct (extract_source src (node_pos n)) as [[source|]|]; [apply keeps_emit|exact P|]. intros p q E. discriminate E. }
    destruct m; try assumption; [|destruct (is_section_heading n); [|exact P']]; (apply keeps_seq; [|assumption]; intros p q E; injection E as <-; reflexivity).
Qed.
Lemma kin_loop : forall v k l, kin v k l -> forall ts prev fin fin', agree v fin fin' ->
  agree v (document_loop U a src ends_nl checks ts prev k fin) (document_loop U b src ends_nl checks ts prev l fin').
Proof.
  intros v k l K. induction K as [|[n x] [m y] k l (E & A & P) K IH]; intros ts prev fin fin' F; [exact F|]. cbn [fst snd] in *. subst m.
  cbn [document_loop]. cbv zeta. rewrite <- E_directive, <- E_disable.
  assert (R : agree v (document_loop U a src ends_nl checks (ts - 1) (Some n) k fin) (document_loop U b src ends_nl checks (ts - 1) (Some n) l fin')) by (apply IH; exact F).
  destruct ((ts =? 0) && is_html_block n); [exact R|]. destruct (is_footnote_def n); [exact R|].
  assert (D : agree v (document_block U a src checks prev n x ;; document_loop U a src ends_nl checks (ts - 1) (Some n) k fin)
                (document_block U b src checks prev n y ;; document_loop U b src ends_nl checks (ts - 1) (Some n) l fin')).
  { destruct (kin_block v prev n x y A P) as [D1 D2]. apply agree_same; assumption. }
  destruct (node_value n) eqn:V; try exact D. destruct (directive_of n) as [d|]; [|exact D].
  destruct d; try (apply agree_same; [apply agree_refl|apply keeps_directive|exact R]). apply agree_refl.
Qed.
Lemma kin_notes : forall v k l, kin v k l ->
  agree v (all (map (fun ca => if is_footnote_def (fst ca) then snd ca else nop) k)) (all (map (fun ca => if is_footnote_def (fst ca) then snd ca else nop) l))
  /\ keeps (all (map (fun ca => if is_footnote_def (fst ca) then snd ca else nop) k)).
Proof.
  intros v k l K. induction K as [|[n x] [m y] k l (E & A & P) K [IH1 IH2]]; [split; [apply agree_refl|apply keeps_nop]|]. cbn [map fst snd] in *. subst m.
  assert (P' : keeps (if is_footnote_def n then x else nop)) by (destruct (is_footnote_def n); [exact P|apply keeps_nop]).
  split.
  - intros s V. rewrite !all_cons. revert s V. apply agree_same; [|exact P'|exact IH1]. destruct (is_footnote_def n); [exact A|apply agree_refl].
  - intros s s' E. rewrite all_cons in E. revert s s' E. apply keeps_seq; assumption.
Qed.
Lemma keeps_lines : forall n, keeps (collect_reference_lines n).
Proof. intro n. apply keeps_cx_view. apply keeps_collect_lines. Qed.
Lemma kin_document : forall v n k l, kin v k l -> agree v (document U a src ends_nl checks n k) (document U b src ends_nl checks n l).
Proof.
  intros v n k l K. unfold document. rewrite <- (kin_fst _ _ _ K), <- E_flush. cbv zeta. destruct (check_undefined checks src n) as [ws|]; [|apply agree_refl].
  apply agree_same; [apply agree_refl| |]. { intros p q E. injection E as <-. reflexivity. }
  apply agree_same; [apply agree_refl|apply keeps_lines|].
  destruct (kin_notes _ _ _ K) as [N1 N2]. apply agree_same; [exact N1|exact N2|]. apply kin_loop; [exact K|apply agree_refl].
Qed.

(** ** Every node *)
Record fits (v : option list_kind * bool) (n : node) : Prop := {
  f_here : outside v;
  f_details : sec = BulletLists -> snd v = true -> forall l k t, within l n -> node_value l <> NList k t;
  f_lists : sec = BulletLists -> fst v <> None -> forall m, within m n -> node_value m <> NDescriptionDetails;
  f_placed : sec = BulletLists -> exists p, well_placed p n = true /\ (p = true -> apart_from v)
}.
Lemma within_trans : forall x y, within x y -> forall z, within y z -> within x z.
Proof. intros x y XY z YZ. induction YZ; [exact XY|]. eapply within_below; eassumption. Qed.
Lemma E_paragraph : forall v n, outside v -> agree v (paragraph U ENT a src n) (paragraph U ENT b src n).
Proof.
  intros v n O. unfold paragraph. rewrite <- E_content. destruct (extract_source src (node_pos n)) as [source|]; [|apply agree_refl]. cbv zeta.
  match goal with |- agree v (match ?x with _ => _ end) _ => destruct x as [t|] end; [apply agree_refl|].
  destruct (inline_content U ENT a src n) as [[w evs]|]; [|apply agree_refl]. cbn [inline].
  apply agree_same; [apply agree_refl|apply keeps_cx_view; apply keeps_events|].
  apply agree_get. intros s V. rewrite <- (oi_width _ _ _ H). destruct (list_type (cx s)) as [k|] eqn:L; [|apply agree_refl].
  rewrite <- E_continuation; [apply agree_refl|]. rewrite V. clear - O V L. unfold outside, apart_from in *.
  destruct sec; auto. destruct O as [O|O]; [|exact O]. rewrite <- V in O. cbn in O. congruence.
Qed.
Lemma scoped : forall n, without sec n -> (sec = BulletLists -> details_apart n) -> forall v, fits v n -> forall next, agree v (sera next n) (serb next n).
Proof.
  induction n as [w p cs IH] using node_ind'. intros Wo Da v F next.
  assert (Below : forall c, List.In c cs -> within c (Node w p cs)) by (intros c I; eapply within_below; [exact I|constructor]).
  assert (WoC : forall c, List.In c cs -> without sec c) by (intros c I m Wm; apply Wo; exact (within_trans _ _ Wm _ (Below c I))).
  assert (DaC : forall c, List.In c cs -> sec = BulletLists -> details_apart c).
  { intros c I E m l kd t M1 M2 L1 L2. exact (Da E m l kd t (within_trans _ _ M1 _ (Below c I)) M2 (within_trans _ _ L1 _ (Below c I)) L2). }
  assert (Kids : forall v', (forall c, List.In c cs -> fits v' c) -> kin v' (combine cs (with_next sera cs)) (combine cs (with_next serb cs))).
  { intros v' G. apply kin_kids. rewrite Forall_forall in IH |- *. intros c I. apply IH; auto. }
  assert (Placed : forall c, List.In c cs -> sec = BulletLists -> well_placed (is_list_kind w) c = true).
  { intros c I E. destruct (f_placed _ _ F E) as (q & W & _). cbn [well_placed] in W. apply andb_prop in W. destruct W as [_ W].
    rewrite forallb_forall in W. apply W. exact I. }
  assert (Calm : calm (combine cs (with_next sera cs))).
  { apply Forall_forall. intros [c x] I E i l V. apply in_combine_l in I. apply (Wo c (Below c I)). rewrite E. exists i, l. exact V. }
  assert (Same : is_list_kind w = false -> kin v (combine cs (with_next sera cs)) (combine cs (with_next serb cs))).
  { intro N. apply Kids. intros c I. split.
    - apply (f_here _ _ F).
    - intros E T l kd t L. apply (f_details _ _ F E T). exact (within_trans _ _ L _ (Below c I)).
    - intros E T m M. apply (f_lists _ _ F E T). exact (within_trans _ _ M _ (Below c I)).
    - intro E. exists false. split; [|discriminate]. rewrite <- N. apply Placed; assumption. }
  assert (Quote : is_list_kind w = false -> kin (None, snd v) (combine cs (with_next sera cs)) (combine cs (with_next serb cs))).
  { intro N. apply Kids. intros c I. split.
    - unfold outside. cbn [fst snd]. destruct sec; auto. discriminate.
    - intros E T l kd t L. apply (f_details _ _ F E T). exact (within_trans _ _ L _ (Below c I)).
    - intros E T. contradiction.
    - intro E. exists false. split; [|discriminate]. rewrite <- N. apply Placed; assumption. }
  pose proof (Wo _ (within_here _)) as Here. cbn [node_value] in Here.
  assert (Item : is_item w = true -> apart_from v).
  { intro I. unfold apart_from. pose proof (f_here _ _ F) as O. unfold outside in O. pose proof (f_placed _ _ F) as P. clear - I O P.
    destruct sec eqn:S; auto. destruct (P eq_refl) as (q & W & A). cbn [well_placed] in W. rewrite I in W. cbn [negb orb] in W.
    apply andb_prop in W. destruct W as [W _]. specialize (A W). unfold apart_from in A. rewrite S in A. exact A. }
  destruct w; cbn [serialize]; try apply agree_refl;
    try (apply agree_same; [apply agree_refl|apply keeps_emit|]; intros x Vx; unfold seqa; rewrite <- (kin_children _ _ _ (Same eq_refl) x Vx); reflexivity).
  all: cbv zeta.
  all: try (apply kin_children; apply Same; reflexivity).
  all: try (apply kin_document; apply Same; reflexivity).
  all: try (apply kin_description_list; apply Same; reflexivity).
  all: try (apply kin_link; apply Same; reflexivity).
  all: try (apply kin_note; apply Same; reflexivity).
  all: try (apply kin_block_quote; apply Quote; reflexivity).
  all: try (apply kin_alert; apply Quote; reflexivity).
  all: try (apply kin_item; [apply Item; reflexivity|apply Same; reflexivity|exact Calm]).
  all: try (apply E_paragraph; apply (f_here _ _ F)).
  all: try (rewrite <- E_table; apply agree_refl).
  all: try (rewrite <- E_image; apply agree_refl).
  - (* a list *) apply kin_list. apply Kids. intros c I. split.
    + unfold outside. cbn [fst snd]. destruct sec eqn:S; auto.
      * right. destruct kind; [exfalso; apply Here; eexists; reflexivity|]. split; [reflexivity|].
        destruct (snd v) eqn:D; [|reflexivity]. exfalso. eapply (f_details _ _ F S D); [apply within_here|reflexivity].
      * destruct kind; [discriminate|exfalso; apply Here; eexists; reflexivity].
    + intros E T. exfalso. cbn [snd] in T. eapply (f_details _ _ F E T); [apply within_here|reflexivity].
    + intros E _ m M V. destruct (Da E m (Node (NList kind tight) p cs) kind tight (within_trans _ _ M _ (Below c I)) V (within_here _) eq_refl) as [_ Z].
      apply Z. exact (within_trans _ _ M _ (Below c I)).
    + intro E. exists true. split; [apply (Placed c I E)|]. intros _. unfold apart_from. rewrite E. cbn [fst snd].
      rewrite E in Here. destruct kind; [exfalso; apply Here; eexists; reflexivity|]. split; [reflexivity|].
      destruct (snd v) eqn:D; [|reflexivity]. exfalso. eapply (f_details _ _ F E D); [apply within_here|reflexivity].
  - (* details *) apply kin_details; [|exact Calm]. apply Kids. intros c I. split.
    + pose proof (f_here _ _ F) as O. unfold outside in *. cbn [fst snd]. pose proof (f_lists _ _ F) as L. destruct sec eqn:S; auto.
      left. destruct O as [O|[O _]]; [exact O|]. exfalso. eapply (L eq_refl); [rewrite O; discriminate|apply within_here|reflexivity].
    + intros E _ l kd t Wl V. destruct (Da E (Node NDescriptionDetails p cs) l kd t (within_here _) eq_refl (within_trans _ _ Wl _ (Below c I)) V) as [Z _].
      apply Z. exact (within_trans _ _ Wl _ (Below c I)).
    + intros E T m M. apply (f_lists _ _ F E T). exact (within_trans _ _ M _ (Below c I)).
    + intro E. exists false. split; [|discriminate]. apply (Placed c I E).
  - destruct code_dec as [N|N]; [|exfalso; rewrite N in Here; apply Here; eexists; eexists; reflexivity]. destruct (E_code N) as (<- & _). apply agree_refl.
  - rewrite <- E_heading; [apply agree_refl|]. intro E. rewrite E in Here. apply Here. eexists. reflexivity.
  - rewrite <- E_rule; [apply agree_refl|]. intro E. rewrite E in Here. apply Here. reflexivity.
Qed.
End Scope.
