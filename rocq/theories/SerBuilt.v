(** Every action of the serializer is built from a few primitive ones.  An
    invariant of the primitives is an invariant of the serializer. *)
From Coq Require Import Bool Arith NArith Lia ZifyBool ZifyNat ZifyN String List.
From Verif Require Import Base BaseFacts OptsModel WrapModel CodeModel TableModel HeadingModel AstModel StateModel
  InlineModel WarnModel SerModel SpecContext CodeProof StateProof SerFacts.
Import ListNotations.

(** What an action may leave behind besides output and code. *)
Inductive effect :=
| EWarn (w : warning)      (* a warning *)
| EUse (r : reference)     (* the use of a reference *)
| ENote (f : footnote)     (* a footnote to be written *)
| ELine (name : str) (line : nat).  (* a footnote reference *)

Section Built.
Variable U : Uni.
Variable PN : list (str * str).
Variable ENT : str -> option str.
Variable o : Options.
Variable B : backend.
Variable src : list str.
Variable ends_nl : bool.
Variable checks : bool.

(** [top]: actions of a document are allowed.  Nothing else flushes, and nothing
    else changes the skip mode or the nouns. *)
Variable top : bool.

(** Effects that are allowed; warnings of formatter runs (line 0) always are. *)
Variable ok : effect -> Prop.
Hypothesis okw0 : forall w, warn_line w = 0 -> ok (EWarn w).
Local Notation okw := (fun w => ok (EWarn w)).

Inductive built : act -> Prop :=
| b_nop : built nop
| b_panic : built panic
| b_seq : forall a b, built a -> built b -> built (a ;; b)
| b_get : forall A (f : st -> A) k, (forall x, built (k x)) -> built (get f k)
| b_emit : forall x, built (emit x)
| b_code : forall x, built (log (Code x))
| b_use : forall r, ok (EUse r) -> built (add_reference r)
| b_ctx : forall f, built (updc f)
| b_warn : forall f, (forall s, Forall okw (f s)) -> built (upd (fun s => set_warnings (warnings s ++ f s) s))
| b_call : forall w c, Forall okw w -> built (upd (fun s => set_calls (calls s ++ c) (set_warnings (warnings s ++ w) s)))
| b_flush_refs : top = true -> built flush_references
| b_flush_notes : forall l, top = true -> built (flush_footnotes_before U o checks l)
| b_flush_note_refs : forall l, top = true -> built (flush_footnote_references_before l)
| b_record : forall n l, ok (ELine n l) -> built (record_reference_line n l)
| b_collect : forall b l, built (set_collecting b l)
| b_add_note : forall f, ok (ENote f) -> built (add_footnote f)
| b_skip : forall m, top = true -> built (upd (set_skip m))
| b_nouns : forall f g, top = true -> built (upd (fun s => set_nouns (proper_nouns s ++ f) (common_nouns s ++ g) s))
| b_single : forall a k, built a -> (forall x, built (k x)) -> built (single_block a k)
| b_ext : forall a b, built a -> (forall s, a s = b s) -> built b.

Lemma built_all : forall l, Forall built l -> built (all l).
Proof. intros l H. induction H; cbn [all fold_right]; [apply b_nop|]. apply b_seq; assumption. Qed.

Ltac bs :=
  lazymatch goal with
  | |- built nop => apply b_nop
  | |- built panic => apply b_panic
  | |- built (_ ;; _) => apply b_seq
  | |- built (get _ _) => apply b_get; intro
  | |- built (emit _) => apply b_emit
  | |- built (log (Code _)) => apply b_code
  | |- built (updc _) => apply b_ctx
  | |- built flush_references => apply b_flush_refs; assumption
  | |- built (flush_footnotes_before _ _ _ _) => apply b_flush_notes; assumption
  | |- built (flush_footnote_references_before _) => apply b_flush_note_refs; assumption
  | |- built (set_collecting _ _) => apply b_collect
  | |- built (upd (set_skip _)) => apply b_skip; assumption
  | |- built (single_block _ _) => apply b_single; [|intro]
  | |- built (match ?x with _ => _ end) => destruct x
  | H : built ?a |- built ?a => exact H
  end.
Ltac bt := repeat bs.

(** What an inline collector does. *)
Definition event_ok (e : inline_event) : Prop := match e with EvUse r => ok (EUse r) | EvCode _ => True end.
Definition w_ok (w : W) : Prop := forall x evs, w = Ok (x, evs) -> Forall event_ok evs.
Lemma w_ok_ret : forall x, w_ok (wret x).
Proof. intros x y evs E. injection E as <- <-. constructor. Qed.
Lemma w_ok_app : forall a b, w_ok a -> w_ok b -> w_ok (wapp a b).
Proof.
  intros [[x e]|] [[y f]|] A B0 z evs E; try discriminate. injection E as <- <-. apply Forall_app. split; [eapply A|eapply B0]; reflexivity.
Qed.
Lemma w_ok_bind : forall a f, w_ok a -> (forall x, w_ok (f x)) -> w_ok (wbind a f).
Proof.
  intros [[x e]|] f A B0 z evs E; [|discriminate]. unfold wbind in E. cbn [rbind fst snd] in E.
  destruct (f x) as [[y g]|] eqn:F; [|discriminate]. injection E as <- <-. apply Forall_app. split; [eapply A; reflexivity|eapply B0; exact F].
Qed.
Lemma w_ok_rbind : forall A (r : res A) f, (forall x, w_ok (f x)) -> w_ok (rbind r f).
Proof. intros A [x|] f H; [apply H|]. intros y evs E. discriminate. Qed.
Lemma w_ok_cat : forall l, Forall w_ok l -> w_ok (wcat l).
Proof. intros l H. induction H; [apply w_ok_ret|]. apply w_ok_app; assumption. Qed.
Lemma w_ok_use : forall x label url title, ok (EUse (mkRef label url title)) -> w_ok (wuse x label url title).
Proof. intros x label url title H y evs E. injection E as <- <-. repeat constructor. exact H. Qed.
Lemma with_next_in : forall A (f : option node -> node -> A) cs x, In x (with_next f cs) -> exists nx c, In c cs /\ x = f nx c.
Proof.
  induction cs as [|c cs IH]; intros x I; [destruct I|]. destruct I as [<-|I]; [eexists; exists c; split; [left; reflexivity|reflexivity]|].
  destruct (IH x I) as (nx & d & J & ->). exists nx, d. split; [right; exact J|reflexivity].
Qed.

(** The links and images below a node may be used as references. *)
Definition links_ok (n : node) : Prop := forall m, within m n ->
  match node_value m with
  | NLink url title | NImage url title => forall label, ok (EUse (mkRef label url title))
  | _ => True
  end.
Lemma links_ok_child : forall v p cs c, links_ok (Node v p cs) -> In c cs -> links_ok c.
Proof. intros v p cs c H I m W. apply H. eapply within_below; eassumption. Qed.
Lemma w_ok_text : forall p t, w_ok (inline_text U ENT o src p t).
Proof. intros p t. apply w_ok_rbind. intros [x|]; apply w_ok_ret. Qed.
Lemma w_ok_code : forall p t, w_ok (inline_code src p t).
Proof. intros p t. apply w_ok_rbind. intros x y evs E. injection E as <- <-. repeat constructor. Qed.
Lemma w_ok_reference : forall op text label url title, (forall l, ok (EUse (mkRef l url title))) ->
  w_ok (format_reference op text label url title).
Proof. intros op text label url title H. unfold format_reference. destruct (strip_prefix _ _); [|destruct (seqb _ _)]; apply w_ok_use; apply H. Qed.
Lemma w_ok_collect_text : forall n, links_ok n -> w_ok (collect_text U ENT o src n).
Proof.
  induction n as [v p cs IH] using node_ind'. intro L.
  assert (K : w_ok (wcat (map (collect_text U ENT o src) cs))).
  { apply w_ok_cat. apply Forall_map. rewrite Forall_forall in *. intros c I. apply (IH c I). exact (links_ok_child _ _ _ _ L I). }
  pose proof (L _ (within_here _)) as Own. cbn [node_value] in Own. cbn [collect_text].
  destruct v; try exact K; try apply w_ok_ret; try apply w_ok_text; try apply w_ok_code.
  - apply w_ok_rbind. intro d. repeat apply w_ok_app; try apply w_ok_ret. exact K.
  - apply w_ok_rbind. intro d. repeat apply w_ok_app; try apply w_ok_ret. exact K.
  - apply w_ok_rbind. intros [[t l]|]; [apply w_ok_reference; exact Own|]. destruct (is_external_url url); [apply w_ok_use; apply Own|apply w_ok_ret].
Qed.
Lemma w_ok_collect_inline : forall n next, links_ok n -> w_ok (collect_inline U ENT o src next n).
Proof.
  induction n as [v p cs IH] using node_ind'. intros next L.
  assert (K : w_ok (wcat (with_next (collect_inline U ENT o src) cs))).
  { apply w_ok_cat. rewrite Forall_forall in *. intros w I. apply with_next_in in I. destruct I as (nx & c & I & ->). apply (IH c I).
    exact (links_ok_child _ _ _ _ L I). }
  pose proof (L _ (within_here _)) as Own. cbn [node_value] in Own. cbn [collect_inline]. cbv zeta.
  destruct v; try exact K; try apply w_ok_ret; try apply w_ok_text; try apply w_ok_code.
  - apply w_ok_rbind. intro d. repeat apply w_ok_app; try apply w_ok_ret. exact K.
  - apply w_ok_rbind. intro d. repeat apply w_ok_app; try apply w_ok_ret. exact K.
  - apply w_ok_rbind. intros [[t l]|].
    + destruct (existsb is_image cs); [|apply w_ok_reference; exact Own].
      repeat apply w_ok_app; [apply w_ok_ret|exact K|apply w_ok_use; apply Own].
    + destruct (existsb is_image cs); [repeat apply w_ok_app; [apply w_ok_ret|exact K|apply w_ok_ret]|].
      destruct (_ && _); [apply w_ok_ret|]. destruct (is_external_url url); (apply w_ok_bind; [exact K|]); intro x;
        [apply w_ok_use; apply Own|apply w_ok_ret].
  - apply w_ok_rbind. intros [[t l]|]; [apply w_ok_reference; exact Own|]. apply w_ok_bind; [exact K|]. intro x. apply w_ok_ret.
Qed.
Lemma w_ok_collect_all : forall cs, Forall links_ok cs -> w_ok (wcat (with_next (collect_inline U ENT o src) cs)).
Proof.
  intros cs H. apply w_ok_cat. apply Forall_forall. intros w I. apply with_next_in in I. destruct I as (nx & c & I & ->).
  apply w_ok_collect_inline. rewrite Forall_forall in H. exact (H c I).
Qed.
Lemma links_ok_children : forall n, links_ok n -> Forall links_ok (node_children n).
Proof. intros [v p cs] H. apply Forall_forall. intros c I. exact (links_ok_child _ _ _ _ H I). Qed.
Lemma w_ok_content : forall n, links_ok n -> w_ok (inline_content U ENT o src n).
Proof. intros n H. apply w_ok_collect_all. apply links_ok_children. exact H. Qed.

Lemma built_event : forall e, event_ok e -> built (do_event e).
Proof. intros [r|t] H; cbn [do_event]; bt. apply b_use. exact H. Qed.
Lemma built_events : forall l, Forall event_ok l -> built (all (map do_event l)).
Proof. intros l H. apply built_all. apply Forall_map. eapply Forall_impl; [|exact H]. apply built_event. Qed.
Lemma built_inline : forall w k, w_ok w -> (forall x, built (k x)) -> built (inline w k).
Proof.
  intros [[x evs]|] k Hw H; cbn [inline]; bt; [apply built_events; eapply Hw; reflexivity|apply H].
Qed.
Lemma built_code : forall f, (forall n, Forall okw (eff_warnings (snd (f n)))) -> built (code_act f).
Proof.
  intros f H. unfold code_act. apply b_get. intro n. specialize (H n). destruct (f n) as [text eff]. bt.
  apply b_call. exact H.
Qed.
Lemma code_parts_warnings : forall n info literal, Forall okw (eff_warnings (snd (code_parts o B n info literal))).
Proof.
  intros n info literal. destruct (code_parts o B n info literal) as [[oi content] eff] eqn:E. cbn [snd].
  apply code_parts_settles in E. destruct E as (_ & f & _ & ->). destruct f as [[f e]|]; cbn; [|constructor].
  constructor; [apply okw0; reflexivity|constructor].
Qed.
Lemma built_code_block : forall q info literal, built (code_act (fun m => code_block o B q m info literal)).
Proof.
  intros q info literal. apply built_code. intro n. pose proof (code_parts_warnings n info literal) as H. unfold code_block.
  destruct (code_parts o B n info literal) as [[oi content] eff]. exact H.
Qed.
Lemma built_code_indented : forall q info literal base,
  built (code_act (fun m => code_block_indented o B q m info literal base)).
Proof.
  intros q info literal base. apply built_code. intro n. pose proof (code_parts_warnings n info literal) as H. unfold code_block_indented.
  destruct (code_parts o B n info literal) as [[oi content] eff]. exact H.
Qed.
Lemma built_code_with_indent : forall info literal indent,
  built (code_act (fun m => code_block_with_indent o B m info literal indent)).
Proof.
  intros info literal indent. apply built_code. intro n. pose proof (code_parts_warnings n info literal) as H. unfold code_block_with_indent.
  destruct (code_parts o B n info literal) as [[oi content] eff]. exact H.
Qed.
Lemma built_flush_all : forall l, top = true -> built (flush_all U o checks l).
Proof. intros l T. unfold flush_all. bt. Qed.
Lemma built_ensure : built ensure_blank_line.
Proof. unfold ensure_blank_line. bt. Qed.
Definition refs_ok (n : node) : Prop := forall m, within m n ->
  match node_value m with NFootnoteReference name => ok (ELine name (start_line (node_pos m))) | _ => True end.
Lemma built_collect_lines : forall n, refs_ok n -> built (collect_reference_lines n).
Proof.
  induction n as [v p cs IH] using node_ind'. intro L. cbn [collect_reference_lines]. apply b_seq.
  - destruct v; bt. apply b_record. exact (L _ (within_here _)).
  - apply built_all. apply Forall_map. rewrite Forall_forall in *. intros c I. apply (IH c I). intros m W. apply L. eapply within_below; eassumption.
Qed.

Definition built_kids (k : kids) : Prop := Forall (fun x => built (snd x) /\ links_ok (fst x)) k.

Lemma built_children : forall k, built_kids k -> built (children_acts k).
Proof. intros k H. apply built_all. apply Forall_map. eapply Forall_impl; [|exact H]. intros x [Hx _]. exact Hx. Qed.
Lemma built_blockquote_children : forall k indent prefix first, built_kids k -> built (blockquote_children indent prefix first k).
Proof.
  induction k as [|[n a] k IH]; intros indent prefix first H; cbn [blockquote_children]; [bt|].
  inversion H as [|? ? [Ha Hl] Hk]; subst. cbn [snd] in *. bt. apply IH. assumption.
Qed.
Lemma built_block_quote : forall k, built_kids k -> built (block_quote k).
Proof. intros k H. unfold block_quote. bt. apply built_blockquote_children; exact H. Qed.
Lemma built_alert : forall a p k, built_kids k -> built (alert a p k).
Proof. intros a p k H. unfold alert. apply b_get. intro. repeat apply b_seq; bt. apply built_block_quote; exact H. Qed.
Lemma built_list : forall kind tight k, built_kids k -> built (list_block kind tight k).
Proof. intros kind tight k H. unfold list_block. bt. apply built_children; exact H. Qed.
Lemma built_item_children : forall base k prev, built_kids k -> built (item_children o B base prev k).
Proof.
  intros base. induction k as [|[n a] k IH]; intros prev H; cbn [item_children]; [bt|].
  inversion H as [|? ? [Ha Hl] Hk]; subst. cbn [snd] in Ha. apply b_seq; [|apply IH; exact Hk]. cbv zeta.
  bt. apply built_code_indented.
Qed.
Lemma built_item : forall task k, built_kids k -> built (list_item o B task k).
Proof. intros task k H. unfold list_item. bt. apply built_item_children; exact H. Qed.
Lemma built_paragraph : forall n, links_ok n -> built (paragraph U ENT o src n).
Proof.
  intros n L. unfold paragraph. cbv zeta. destruct (extract_source src (node_pos n)) as [source|]; [|bt].
  match goal with |- built (match ?x with Some _ => _ | None => _ end) => destruct x end; [bt|].
  apply built_inline; [apply w_ok_content; exact L|]. intro content. bt.
Qed.
Lemma built_heading : forall n level, links_ok n -> built (heading U PN ENT o src n level).
Proof. intros n level L. apply built_inline; [apply w_ok_collect_text; exact L|]. intro text. bt. Qed.
Lemma built_details_paragraph : forall quote marker child, links_ok child -> built (details_paragraph U ENT o src quote marker child).
Proof. intros quote marker child L. unfold details_paragraph. bt. apply built_inline; [apply w_ok_content; exact L|]. intro. bt. Qed.
Lemma built_with_item_indent : forall indent a, built a -> built (with_item_indent indent a).
Proof. intros. unfold with_item_indent. bt. Qed.
Lemma built_details_children : forall quote k first, built_kids k -> built (details_children U ENT o B src quote first k).
Proof.
  intros quote. induction k as [|[n a] k IH]; intros first H; cbn [details_children]; [bt|].
  inversion H as [|? ? [Ha Hl] Hk]; subst. cbn [fst snd] in *. apply b_seq; [|apply IH; exact Hk].
  bt; first [apply built_with_item_indent; exact Ha | apply built_code_with_indent | apply built_details_paragraph; exact Hl].
Qed.
Lemma built_details : forall k, built_kids k -> built (description_details U ENT o B src k).
Proof. intros k H. unfold description_details. apply b_get. intro. repeat apply b_seq; bt. apply built_details_children; exact H. Qed.
Lemma built_description_list : forall k first, built_kids k -> built (description_list first k).
Proof.
  induction k as [|[n a] k IH]; intros first H; cbn [description_list]; [bt|]. inversion H as [|? ? [Ha Hl] Hk]; subst. cbn [snd] in *.
  apply b_seq; [bt|]. bt. apply IH; assumption.
Qed.
Lemma built_warn : forall w, Forall okw w -> built (upd (fun s => set_warnings (warnings s ++ w) s)).
Proof. intros w H. apply (b_warn (fun _ => w)). auto. Qed.
Lemma rcollect_ok : forall l, Forall w_ok l -> forall x evs, rcollect l = Ok (x, evs) -> Forall event_ok evs.
Proof.
  intros l H. induction H as [|w l Hw H IH]; intros x evs E; [injection E as <- <-; constructor|]. cbn [rcollect] in E.
  destruct w as [[t e]|]; [|discriminate]. cbn [rbind fst snd] in E. destruct (rcollect l) as [[y f]|]; [|discriminate].
  injection E as <- <-. apply Forall_app. split; [eapply Hw; reflexivity|eapply IH; reflexivity].
Qed.
Lemma table_rows_ok : forall rows, Forall links_ok rows -> forall cells evs,
  table_rows U ENT o src rows = Ok (cells, evs) -> Forall event_ok evs.
Proof.
  intros rows H. induction H as [|r rows Hr H IH]; intros cells evs E; [injection E as <- <-; constructor|]. cbn [table_rows] in E.
  destruct (rcollect (map (inline_content U ENT o src) (node_children r))) as [[x e]|] eqn:R; [|discriminate]. cbn [rbind fst snd] in E.
  destruct (table_rows U ENT o src rows) as [[y f]|]; [|discriminate]. injection E as <- <-. apply Forall_app. split; [|eapply IH; reflexivity].
  eapply rcollect_ok; [|exact R]. apply Forall_map. eapply Forall_impl; [|apply links_ok_children; exact Hr]. intros c Hc. apply w_ok_content. exact Hc.
Qed.
Lemma built_table : forall p aligns rows,
  Forall okw (check_table_source_columns src (start_line p) (end_line p) (List.length aligns) (start_line p)) ->
  Forall links_ok rows ->
  built (table U ENT o src p aligns rows).
Proof.
  intros p aligns rows H L. unfold table. destruct (is_nil rows); [bt|]. apply b_seq; [apply built_warn; exact H|].
  destruct (table_rows U ENT o src rows) as [[cells evs]|] eqn:E; [|bt]. apply b_seq; [|bt]. apply built_events.
  eapply table_rows_ok; eassumption.
Qed.
Lemma built_link : forall next n url title k, links_ok n -> (forall label, ok (EUse (mkRef label url title))) ->
  built_kids k -> built (link U ENT o src next n url title k).
Proof.
  intros next n url title k L Own H. unfold link. cbv zeta. bt;
    first [apply built_children; exact H | apply b_use; apply Own | apply built_inline; [|intro; bt]].
  - apply w_ok_reference. exact Own.
  - apply w_ok_bind; [apply w_ok_collect_text; exact L|]. intro x. apply w_ok_use. apply Own.
  - apply w_ok_bind; [apply w_ok_collect_text; exact L|]. intro x. apply w_ok_ret.
Qed.
Lemma w_ok_unwritten : forall w, w_ok w -> w_ok (unwritten w).
Proof.
  intros [[x e]|] H y evs E; [|discriminate]. injection E as <- <-. specialize (H x e eq_refl). rewrite Forall_forall in *.
  intros v I. apply filter_In in I. apply H. apply I.
Qed.
Lemma built_image : forall n url title, links_ok n -> (forall label, ok (EUse (mkRef label url title))) ->
  built (image U ENT o src n url title).
Proof.
  intros n url title L Own. apply built_inline; [|intro; bt]. apply w_ok_rbind. intros [[t l]|].
  - apply w_ok_bind; [apply w_ok_unwritten; apply w_ok_collect_text; exact L|]. intro alt. apply w_ok_reference. exact Own.
  - apply w_ok_bind; [apply w_ok_collect_text; exact L|]. intro alt. apply w_ok_ret.
Qed.
Lemma built_footnote_blocks : forall k result first f, built_kids k -> (forall x, built (f x)) ->
  built (footnote_blocks result first k f).
Proof.
  induction k as [|[n a] k IH]; intros result first f H Hf; cbn [footnote_blocks]; [apply Hf|].
  inversion H as [|? ? [Ha Hl] Hk]; subst. apply b_single; [assumption|]. intro x. apply IH; assumption.
Qed.
Lemma built_footnote_definition : forall name cs k, Forall links_ok cs ->
  (forall f, fn_name f = name -> fn_has_blocks f = footnote_has_blocks cs -> ok (ENote f)) ->
  built_kids k -> built (footnote_definition U ENT o src name cs k).
Proof.
  intros name cs k L Own H. unfold footnote_definition. apply b_get. intro line. cbv zeta. apply b_seq; [bt|].
  destruct (footnote_has_blocks cs).
  - apply built_footnote_blocks; [exact H|]. intro. bt. apply b_add_note. apply Own; reflexivity.
  - apply built_inline; [apply w_ok_collect_all; exact L|]. intro. bt. apply b_add_note. apply Own; reflexivity.
Qed.
Lemma built_output_trailing : forall cs first, built (output_trailing first cs).
Proof.
  induction cs as [|c cs IH]; intro first; cbn [output_trailing]; [bt|].
  destruct (node_value c); try apply IH. bt; first [apply built_ensure|apply IH].
Qed.
Lemma built_document_block : forall prev child a, top = true -> built a -> built (document_block U o src checks prev child a).
Proof.
  intros prev child a T H. unfold document_block. cbv zeta. apply b_seq; [|bt].
  bt; apply built_flush_all; exact T.
Qed.
Lemma built_directive : forall prev child literal d, top = true -> built (directive_act U o checks prev child literal d).
Proof.
  intros prev child literal d T. unfold directive_act. cbv zeta. destruct d; bt; try (apply built_flush_all; exact T).
  - eapply b_ext; [apply (b_nouns nouns [] T)|]. intro s. cbn beta. unfold upd. rewrite app_nil_r. reflexivity.
  - eapply b_ext; [apply (b_nouns [] nouns T)|]. intro s. cbn beta. unfold upd. rewrite app_nil_r. reflexivity.
Qed.
Lemma built_disable_file : forall child literal, top = true -> built (disable_file U o src ends_nl checks child literal).
Proof. intros child literal T. unfold disable_file. bt; apply built_flush_all; exact T. Qed.
Lemma built_document_loop : top = true -> forall k ts prev finish, built_kids k -> built finish ->
  built (document_loop U o src ends_nl checks ts prev k finish).
Proof.
  intro T. induction k as [|[n a] k IH]; intros ts prev finish H Hf; cbn [document_loop]; [exact Hf|].
  inversion H as [|? ? [Ha Hl] Hk]; subst. cbn [snd] in Ha.
  pose proof (IH (ts - 1) (Some n) finish Hk Hf) as C. cbv zeta.
  destruct ((ts =? 0) && is_html_block n); [exact C|]. destruct (is_footnote_def n); [exact C|].
  assert (D : built (document_block U o src checks prev n a ;; document_loop U o src ends_nl checks (ts - 1) (Some n) k finish))
    by (apply b_seq; [apply built_document_block; [exact T|exact Ha]|exact C]).
  destruct (node_value n); try exact D. destruct (directive_of n) as [d|]; [|exact D].
  destruct d; try (apply b_seq; [apply built_directive; exact T|exact C]). apply built_disable_file. exact T.
Qed.
Lemma built_document : forall n k, top = true -> refs_ok n -> built_kids k ->
  (forall ws, check_undefined checks src n = Ok ws -> Forall okw ws) ->
  built (document U o src ends_nl checks n k).
Proof.
  intros n k T L H W. unfold document. cbv zeta. destruct (check_undefined checks src n) as [ws|]; [|bt].
  apply b_seq; [apply built_warn; apply W; reflexivity|]. apply b_seq; [apply built_collect_lines; exact L|]. apply b_seq.
  - apply built_all. apply Forall_map. eapply Forall_impl; [|exact H]. intros [m a] [Ha Hl]. cbn [fst snd] in *. bt.
  - apply built_document_loop; [exact T|exact H|]. apply b_seq; [apply built_flush_all; exact T|apply built_output_trailing].
Qed.

Lemma with_next_built : forall (f : option node -> node -> act) cs, Forall (fun c => (forall nx, built (f nx c)) /\ links_ok c) cs ->
  built_kids (combine cs (with_next f cs)).
Proof.
  intros f cs H. induction H as [|c cs [Hc Hl] H IH]; [constructor|]. cbn [with_next combine]. constructor; [split; [apply Hc|exact Hl]|exact IH].
Qed.

(** The warnings a node itself gives rise to. *)
Definition own_warnings (n : node) : res (list warning) :=
  match n with
  | Node NDocument _ _ => check_undefined checks src n
  | Node (NTable aligns) p _ =>
      Ok (check_table_source_columns src (start_line p) (end_line p) (List.length aligns) (start_line p))
  | _ => Ok []
  end.
(** What the nodes below a node do is allowed. *)
Definition own_ok (n : node) : Prop :=
  (forall ws, own_warnings n = Ok ws -> Forall okw ws)
  /\ match node_value n with
     | NLink url title | NImage url title => forall label, ok (EUse (mkRef label url title))
     | NFootnoteDefinition name =>
         forall f, fn_name f = name -> fn_has_blocks f = footnote_has_blocks (node_children n) -> ok (ENote f)
     | NFootnoteReference name => ok (ELine name (start_line (node_pos n)))
     | _ => True
     end.
Definition effects_ok (n : node) : Prop := forall m, within m n -> own_ok m.
Lemma effects_links : forall n, effects_ok n -> links_ok n.
Proof. intros n H m W. destruct (H m W) as [_ X]. destruct (node_value m); try exact I; exact X. Qed.

Lemma effects_refs : forall n, effects_ok n -> refs_ok n.
Proof. intros n H m W. destruct (H m W) as [_ X]. destruct (node_value m); try exact I; exact X. Qed.

Theorem built_serialize : forall n next, (top = false -> no_document n = true) -> effects_ok n ->
  built (serialize U PN ENT o B src ends_nl checks next n).
Proof.
  induction n as [v p cs IH] using node_ind'. intros next T W.
  assert (Below : forall c, In c cs -> effects_ok c).
  { intros c I m J. apply W. eapply within_below; eassumption. }
  assert (K : built_kids (combine cs (with_next (serialize U PN ENT o B src ends_nl checks) cs))).
  { apply with_next_built. rewrite Forall_forall in *. intros c Hc. split; [intro nx; apply (IH c Hc)|].
    - intro F. specialize (T F). cbn [no_document] in T. apply andb_true_iff in T. destruct T as [_ T].
      rewrite forallb_forall in T. exact (T c Hc).
    - exact (Below c Hc).
    - apply effects_links. exact (Below c Hc). }
  pose proof (effects_links _ W) as L.
  assert (LC : Forall links_ok cs) by (apply (links_ok_children _ L)).
  destruct (W _ (within_here _)) as [WH Own]. cbn [own_warnings node_value] in WH, Own.
  cbn [serialize]. cbv zeta.
  destruct v;
    first [ apply built_document; [destruct top; [reflexivity|discriminate (T eq_refl)]|apply effects_refs; exact W|exact K|exact WH]
          | apply built_block_quote; exact K | apply built_list; exact K
          | apply built_item; exact K | apply built_description_list; exact K | apply built_details; exact K
          | apply built_paragraph; exact L | apply built_heading; exact L | apply built_footnote_definition; [exact LC|exact Own|exact K]
          | apply built_table; [apply WH; reflexivity|exact LC]
          | apply built_link; [exact L|exact Own|exact K] | apply built_image; [exact L|exact Own] | apply built_alert; exact K | apply built_children; exact K
          | idtac ]; unfold thematic_break; bt; first [apply built_code_block | apply b_record; exact Own | apply built_children; exact K].
Qed.
End Built.

(** Only the warnings matter. *)
Definition only_warnings (okw : warning -> Prop) (e : effect) : Prop :=
  match e with EWarn w => okw w | _ => True end.
Definition warns_ok (src : list str) (checks : bool) (okw : warning -> Prop) (n : node) : Prop :=
  forall m ws, within m n -> own_warnings src checks m = Ok ws -> Forall okw ws.
Lemma warns_effects : forall src checks okw n, warns_ok src checks okw n -> effects_ok src checks (only_warnings okw) n.
Proof.
  intros src checks okw n H m W. split; [intros ws E; exact (H m ws W E)|]. destruct (node_value m); cbn; auto.
Qed.
(** Nothing matters. *)
Definition any_effect (e : effect) : Prop := True.
Lemma any0 : forall w, warn_line w = 0 -> any_effect (EWarn w).
Proof. intros. exact I. Qed.
Lemma any_ok : forall src checks n, effects_ok src checks any_effect n.
Proof.
  intros src checks n m _. split; [intros ws _; apply Forall_forall; intros; exact I|]. destruct (node_value m); try exact I; intros; exact I.
Qed.

Lemma any_refs : forall n, refs_ok any_effect n.
Proof. intros n m _. destruct (node_value m); exact I. Qed.

Ltac bsg :=
  lazymatch goal with
  | |- built _ _ _ _ _ nop => apply b_nop
  | |- built _ _ _ _ _ panic => apply b_panic
  | |- built _ _ _ _ _ (_ ;; _) => apply b_seq
  | |- built _ _ _ _ _ (get _ _) => apply b_get; intro
  | |- built _ _ _ _ _ (emit _) => apply b_emit
  | |- built _ _ _ _ _ (log (Code _)) => apply b_code
  | |- built _ _ _ _ _ (updc _) => apply b_ctx
  | |- built _ _ _ _ _ flush_references => apply b_flush_refs; assumption
  | |- built _ _ _ _ _ (flush_footnotes_before _ _ _ _) => apply b_flush_notes; assumption
  | |- built _ _ _ _ _ (flush_footnote_references_before _) => apply b_flush_note_refs; assumption
  | |- built _ _ _ _ _ (set_collecting _ _) => apply b_collect
  | |- built _ _ _ _ _ (upd (set_skip _)) => apply b_skip; assumption
  | |- built _ _ _ _ _ (single_block _ _) => apply b_single; [|intro]
  | |- built _ _ _ _ _ (match ?x with _ => _ end) => destruct x
  | H : built _ _ _ _ _ ?a |- built _ _ _ _ _ ?a => exact H
  end.
Ltac btg := repeat bsg.

