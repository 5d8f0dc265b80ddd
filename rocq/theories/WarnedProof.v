(** Which warnings a run gives (C66). *)
From Coq Require Import Bool Arith NArith Lia ZifyBool ZifyNat ZifyN String List.
From Verif Require Import Base BaseFacts OptsModel WrapModel CodeModel TableModel HeadingModel AstModel StateModel
  InlineModel WarnModel SerModel SpecState SpecContext SpecDoc StateProof PropsState SerFacts PropsOrder SerBuilt OutputProof DocProof
  PropsDoc DocRun SpecWarn PropsWarn SpecInline SpecWarned.
Import ListNotations.

Section Warned.
Variable U : Uni.
Variable PN : list (str * str).
Variable ENT : str -> option str.
Variable o : Options.
Variable B : backend.
Variable src : list str.
Variable ends_nl : bool.
Variable checks : bool.
Variable keep : warning -> bool.
Hypothesis parts_dropped : forall n info literal, filter keep (eff_warnings (snd (code_parts o B n info literal))) = [].
Notation ser := (serialize U PN ENT o B src ends_nl checks).

(** The warnings of one table. *)
Definition rows (t : node) : list warning :=
  match node_value t with
  | NTable aligns => check_table_source_columns src (start_line (node_pos t)) (end_line (node_pos t)) (List.length aligns) (start_line (node_pos t))
  | _ => []
  end.
Definition gives (a : act) (ws : list warning) : Prop := forall s t, a s = Ok t ->
  filter keep (warnings t) = filter keep (warnings s) ++ filter keep ws.
Lemma gives_nop : gives nop []. Proof. intros s t E. injection E as <-. rewrite app_nil_r. reflexivity. Qed.
Lemma gives_panic : forall ws, gives panic ws. Proof. intros ws s t E. discriminate. Qed.
Lemma gives_upd : forall f, (forall s, warnings (f s) = warnings s) -> gives (upd f) [].
Proof. intros f H s t E. injection E as <-. rewrite H, app_nil_r. reflexivity. Qed.
Lemma gives_emit : forall x, gives (emit x) []. Proof. intro x. apply gives_upd. reflexivity. Qed.
Lemma gives_updc : forall f, gives (updc f) []. Proof. intro f. apply gives_upd. reflexivity. Qed.
Lemma gives_log : forall e, gives (log e) []. Proof. intro e. apply gives_upd. reflexivity. Qed.
Lemma gives_seq : forall a b u v, gives a u -> gives b v -> gives (a ;; b) (u ++ v).
Proof.
  intros a b u v A C s t E. apply seqa_ok in E. destruct E as (m & E1 & E2). rewrite (C _ _ E2), (A _ _ E1), filter_app, app_assoc. reflexivity.
Qed.
Lemma gives_first : forall a b u, gives a u -> gives b [] -> gives (a ;; b) u.
Proof. intros a b u A C. rewrite <- (app_nil_r u). apply gives_seq; assumption. Qed.
Lemma gives_then : forall a b v, gives a [] -> gives b v -> gives (a ;; b) v.
Proof. intros a b v A C. apply (gives_seq a b [] v); assumption. Qed.
Lemma gives_get : forall {A} (f : st -> A) k ws, (forall x, gives (k x) ws) -> gives (get f k) ws.
Proof. intros A f k ws H s t E. exact (H _ _ _ E). Qed.
Lemma gives_add : forall r, gives (add_reference r) [].
Proof. intros r. unfold add_reference. apply gives_upd. intro s. cbv zeta. destruct (f_collecting (footnotes s)); reflexivity. Qed.
Lemma gives_event : forall e, gives (do_event e) [].
Proof. intros [r|x]; cbn [do_event]; [apply gives_add|apply gives_log]. Qed.
Lemma gives_events : forall l, gives (all (map do_event l)) [].
Proof. induction l as [|e l IH]; [apply gives_nop|]. cbn [map]. intros s t E. rewrite all_cons in E. exact (gives_then _ _ _ (gives_event e) IH s t E). Qed.
Lemma gives_inline : forall w k ws, (forall x, gives (k x) ws) -> gives (inline w k) ws.
Proof. intros [[x e]|] k ws H; cbn [inline]; [|apply gives_panic]. apply gives_then; [apply gives_events|apply H]. Qed.
Lemma gives_code : forall f, (forall n, filter keep (eff_warnings (snd (f n))) = []) -> gives (code_act f) [].
Proof.
  intros f H. unfold code_act. apply gives_get. intro n. specialize (H n). destruct (f n) as [text eff]. cbn [snd] in H.
  apply gives_first; [|apply gives_then; [apply gives_log|apply gives_emit]].
  intros s t E. injection E as <-. cbn. rewrite filter_app, H. reflexivity.
Qed.
Lemma gives_block : forall q info literal, gives (code_act (fun n => code_block o B q n info literal)) [].
Proof. intros q info literal. apply gives_code. intro n. pose proof (parts_dropped n info literal) as H. unfold code_block. destruct (code_parts o B n info literal) as [[a b] e]. exact H. Qed.
Lemma gives_indented : forall q info literal i, gives (code_act (fun n => code_block_indented o B q n info literal i)) [].
Proof. intros q info literal i. apply gives_code. intro n. pose proof (parts_dropped n info literal) as H. unfold code_block_indented. destruct (code_parts o B n info literal) as [[a b] e]. exact H. Qed.
Lemma gives_with : forall info literal i, gives (code_act (fun n => code_block_with_indent o B n info literal i)) [].
Proof. intros info literal i. apply gives_code. intro n. pose proof (parts_dropped n info literal) as H. unfold code_block_with_indent. destruct (code_parts o B n info literal) as [[a b] e]. exact H. Qed.

(** ** Children *)
Definition below (k : kids) : list warning := flat_map (fun ca => flat_map rows (tables (fst ca))) k.
Definition giving (k : kids) : Prop := Forall (fun ca : node * act => gives (snd ca) (flat_map rows (tables (fst ca)))) k.
Ltac gv := repeat match goal with
  | |- gives nop _ => apply gives_nop
  | |- gives panic _ => apply gives_panic
  | |- gives (emit _) _ => apply gives_emit
  | |- gives (updc _) _ => apply gives_updc
  | |- gives (log _) _ => apply gives_log
  | |- gives (add_reference _) _ => apply gives_add
  | |- gives (code_act (fun n => code_block _ _ _ n _ _)) _ => apply gives_block
  | |- gives (code_act (fun n => code_block_indented _ _ _ n _ _ _)) _ => apply gives_indented
  | |- gives (code_act (fun n => code_block_with_indent _ _ n _ _ _)) _ => apply gives_with
  | |- gives (get _ _) _ => apply gives_get; intro
  | |- gives (inline _ _) _ => apply gives_inline; intro
  | |- gives (seqa _ _) _ => apply gives_then; [solve [gv]|]
  end.
Lemma gives_children : forall k, giving k -> gives (children_acts k) (below k).
Proof.
  intros k K. induction K as [|[n a] k A K IH]; [apply gives_nop|]. intros s t E. unfold children_acts in E. cbn [map] in E. rewrite all_cons in E.
  exact (gives_seq _ _ _ _ A IH s t E).
Qed.
Lemma gives_quote_children : forall k, giving k -> forall indent prefix first, gives (blockquote_children indent prefix first k) (below k).
Proof.
  intros k K. induction K as [|[n a] k A K IH]; intros indent prefix first; [apply gives_nop|]. cbn [blockquote_children].
  apply gives_then; [destruct first; gv|]. exact (gives_seq _ _ _ _ A (IH _ _ _)).
Qed.
Lemma gives_quote : forall k, giving k -> gives (block_quote k) (below k).
Proof. intros k K. unfold block_quote. gv. apply gives_first; [apply gives_quote_children; exact K|gv]. Qed.
Lemma gives_alert : forall a p k, giving k -> gives (alert a p k) (below k).
Proof.
  intros a p k K. unfold alert. gv. apply gives_then; [destruct k as [|[n y] k]; [gv|destruct (_ <? _); gv]|]. apply gives_quote. exact K.
Qed.
Lemma gives_list : forall kind tight k, giving k -> gives (list_block kind tight k) (below k).
Proof.
  intros kind tight k K. unfold list_block. gv. apply gives_first; [apply gives_children; exact K|].
  apply gives_then; [|gv]. apply gives_get. intro d. destruct (d =? 0); gv.
Qed.
Lemma tables_nil : forall n, match node_value n with NParagraph | NCodeBlock _ _ => tables n = [] | _ => True end.
Proof. intros [v p cs]. destruct v; try exact Logic.I; reflexivity. Qed.
Lemma gives_item_children : forall k, giving k -> forall base prev, gives (item_children o B base prev k) (below k).
Proof.
  intros k K. induction K as [|[n a] k A K IH]; intros base prev; [apply gives_nop|]. cbn [item_children].
  cbn [fst snd] in A. refine (gives_seq _ _ _ _ _ (IH _ _)). cbn [fst]. pose proof (tables_nil n) as TN.
  destruct (node_value n); try exact A.
  - gv. exact A.
  - gv. exact A.
  - rewrite TN. gv.
  - apply gives_then; [destruct prev; gv|exact A].
  - gv. exact A.
Qed.
Lemma gives_item : forall task k, giving k -> gives (list_item o B task k) (below k).
Proof.
  intros task k K. unfold list_item. gv. destruct (item_base_indent o x); gv. apply gives_first; [apply gives_item_children; exact K|].
  gv. destruct (last_child k) as [n|]; [destruct (ends_with_newline_kind n)|]; gv.
Qed.
Lemma gives_details_children : forall k, giving k -> forall quote first, gives (details_children U ENT o B src quote first k) (below k).
Proof.
  intros k K. induction K as [|[n a] k A K IH]; intros quote first; [apply gives_nop|]. cbn [details_children].
  cbn [fst snd] in A. refine (gives_seq _ _ _ _ _ (IH _ _)). cbn [fst]. pose proof (tables_nil n) as TN.
  destruct first; [|apply gives_then; [gv|]];
    destruct (node_value n); try rewrite TN; unfold details_paragraph, with_item_indent; gv; try exact A; apply gives_first; try exact A; gv.
Qed.
Lemma gives_details : forall k, giving k -> gives (description_details U ENT o B src k) (below k).
Proof. intros k K. unfold description_details. gv. apply gives_first; [apply gives_details_children; exact K|gv]. Qed.
Lemma gives_description : forall k, giving k -> forall first, gives (description_list first k) (below k).
Proof.
  intros k K. induction K as [|[n a] k A K IH]; intro first; [apply gives_nop|]. cbn [description_list].
  apply gives_then; [destruct first; gv; destruct (in_block_quote _); gv|]. exact (gives_seq _ _ _ _ A (IH _)).
Qed.
Lemma gives_table : forall p aligns cs, gives (table U ENT o src p aligns cs) (flat_map rows (tables (Node (NTable aligns) p cs))).
Proof.
  intros p aligns cs. unfold table. cbn [tables]. destruct cs as [|c cs]; [apply gives_nop|]. cbn [is_nil flat_map]. rewrite app_nil_r. unfold rows. cbn [node_value node_pos].
  apply gives_first; [intros s t E; injection E as <-; cbn; apply filter_app|].
  destruct (table_rows U ENT o src (c :: cs)) as [[cells evs]|]; gv. apply gives_then; [apply gives_events|gv].
Qed.
Lemma gives_link : forall next n url title k, giving k ->
  gives (link U ENT o src next n url title k) (if existsb is_image (map fst k) then below k else []).
Proof.
  intros next n url title k K. unfold link. cbv zeta. pose proof (gives_children k K) as C.
  destruct (reference_style_of src (node_pos n)) as [[[text label]|]|]; gv; destruct (existsb is_image (map fst k)); gv;
    try (apply gives_first; [exact C|gv]). destruct (_ && _); [gv|]. destruct (is_external_url url); gv.
Qed.
Lemma gives_blocks : forall k, giving k -> forall result first f, (forall x, gives (f x) []) -> gives (footnote_blocks result first k f) (below k).
Proof.
  intros k K. induction K as [|[n a] k A K IH]; intros result first f F; [apply F|]. cbn [footnote_blocks]. unfold single_block.
  apply gives_get. intro old. apply gives_then; [apply gives_upd; reflexivity|]. refine (gives_seq _ _ _ _ A _).
  apply gives_get. intro out. apply gives_then; [apply gives_upd; reflexivity|]. apply IH. exact F.
Qed.
Lemma gives_note : forall name cs k, giving k ->
  gives (footnote_definition U ENT o src name cs k) (if footnote_has_blocks cs then below k else []).
Proof.
  intros name cs k K. unfold footnote_definition. apply gives_get. intro line. cbv zeta. apply gives_then; [apply gives_upd; reflexivity|].
  assert (F : forall x, gives (set_collecting false 0 ;; add_footnote (mkFootnote name x line (footnote_has_blocks cs))) []).
  { intro x. apply gives_then; apply gives_upd; reflexivity. }
  destruct (footnote_has_blocks cs); [apply gives_blocks; [exact K|exact F]|]. gv. apply F.
Qed.
Lemma gives_paragraph : forall n, gives (paragraph U ENT o src n) [].
Proof.
  intro n. unfold paragraph. destruct (extract_source src (node_pos n)) as [source|]; [|gv]. cbv zeta.
  match goal with |- gives (match ?x with _ => _ end) _ => destruct x end; gv. destruct (list_type _); gv.
Qed.
Lemma below_combine : forall cs, below (combine cs (with_next ser cs)) = flat_map (fun c => flat_map rows (tables c)) cs.
Proof. induction cs as [|c cs IH]; [reflexivity|]. cbn [with_next combine]. unfold below in *. cbn [flat_map fst]. rewrite IH. reflexivity. Qed.
Lemma fst_combine : forall cs, map fst (combine cs (with_next ser cs)) = cs.
Proof. induction cs as [|c cs IH]; [reflexivity|]. cbn [with_next combine map fst]. rewrite IH. reflexivity. Qed.
Lemma flat_rows : forall cs, flat_map (fun c => flat_map rows (tables c)) cs = flat_map rows (flat_map tables cs).
Proof. induction cs as [|c cs IH]; [reflexivity|]. cbn [flat_map]. rewrite flat_map_app, IH. reflexivity. Qed.

Theorem gives_serialize : forall n next, no_document n = true -> gives (ser next n) (flat_map rows (tables n)).
Proof.
  induction n as [v p cs IH] using node_ind'. intros next D. cbn [no_document] in D. apply andb_true_iff in D. destruct D as [Dv Dc].
  assert (K : giving (combine cs (with_next ser cs))).
  { clear - IH Dc. unfold giving. induction cs as [|c cs IHc]; [constructor|]. cbn [with_next combine]. apply Forall_cons_iff in IH. destruct IH as [H1 H2].
    cbn [forallb] in Dc. apply andb_true_iff in Dc. destruct Dc as [D1 D2]. constructor; [apply H1; exact D1|apply IHc; assumption]. }
  assert (E : below (combine cs (with_next ser cs)) = flat_map rows (flat_map tables cs)) by (rewrite below_combine; apply flat_rows).
  destruct v; cbn [serialize tables]; cbv zeta; try discriminate Dv; try rewrite <- E; try (gv; fail).
  - apply gives_quote; exact K.
  - apply gives_list; exact K.
  - apply gives_item; exact K.
  - apply gives_item; exact K.
  - apply gives_description; exact K.
  - apply gives_children; exact K.
  - apply gives_children; exact K.
  - apply gives_details; exact K.
  - apply gives_paragraph.
  - unfold heading. gv.
  - unfold thematic_break. gv.
  - pose proof (gives_note name cs _ K) as G. unfold footnote_has_blocks in G. unfold reads_blocks.
    change (1 <? List.length (filter is_paragraph cs)) with (2 <=? List.length (filter is_paragraph cs)) in G.
    unfold is_paragraph in G. match goal with |- gives _ (flat_map rows (if ?b then _ else _)) => destruct b end; [rewrite <- E|]; exact G.
  - apply gives_table.
  - apply gives_children; exact K.
  - destruct (extract_source src p) as [[x|]|]; gv.
  - gv. apply gives_first; [apply gives_children; exact K|gv].
  - gv. apply gives_first; [apply gives_children; exact K|gv].
  - pose proof (gives_link next (Node (NLink url title) p cs) url title _ K) as G. rewrite fst_combine in G. unfold is_image in G.
    match goal with |- gives _ (flat_map rows (if ?b then _ else _)) => destruct b end; [rewrite <- E|]; exact G.
  - unfold image. gv.
  - apply gives_then; [|gv]. unfold record_reference_line. apply gives_upd. intro s. cbv zeta. destruct (assoc_str _ _); reflexivity.
  - apply gives_alert; exact K.
  - apply gives_children; exact K.
Qed.

(** ** The document *)
Hypothesis src_lines : src <> [] /\ Forall (fun l => ~ In c_nl l) src.
Definition there (n : node) : Prop := exists x, extract_source src (node_pos n) = Ok (Some x).
Lemma keep_same : forall s t : st, warnings t = warnings s -> filter keep (warnings t) = filter keep (warnings s).
Proof. intros s t ->. reflexivity. Qed.

Lemma block_gives : forall prev n next s s', no_document n = true ->
  document_block U o src checks prev n (ser next n) s = Ok s' ->
  (frozen (mode_of (skip s)) n = true /\ there n /\ filter keep (warnings s') = filter keep (warnings s))
  \/ ((frozen (mode_of (skip s)) n = false \/ ~ there n)
      /\ filter keep (warnings s') = filter keep (warnings s) ++ filter keep (flat_map rows (tables n))).
Proof.
  intros prev n next s s' D E. unfold document_block in E. cbv zeta in E. apply seqa_ok in E. destruct E as (m & E1 & E).
  assert (W1 : warnings m = warnings s).
  { destruct (heading_level n) as [[|[|[|[|?]]]]|]; try (injection E1 as <-; reflexivity);
      (destruct prev; [exact (flush_all_warnings _ _ _ _ _ _ E1)|injection E1 as <-; reflexivity]). }
  apply heading_flush in E1. destruct E1 as (_ & _ & _ & S & _).
  apply seqa_ok in E. destruct E as (m2 & E2 & E3). injection E2 as <-. unfold get in E3. cbn [skip set_output] in E3. rewrite S in E3.
  set (m2 := set_output (output m ++ block_separator prev n) m) in *.
  assert (W2 : warnings m2 = warnings s) by exact W1. clearbody m2. clear W1 S.
  assert (Fmt : forall m3, warnings m3 = warnings s -> ser next n m3 = Ok s' ->
      filter keep (warnings s') = filter keep (warnings s) ++ filter keep (flat_map rows (tables n))).
  { intros m3 W E. rewrite <- W. exact (gives_serialize _ _ D _ _ E). }
  assert (Ver : forall m3, warnings m3 = warnings s ->
    (match extract_source src (node_pos n) with
     | Ok (Some source) => emit (source ++ [c_nl])
     | Ok None => ser next n
     | Panic => panic end) m3 = Ok s' ->
    (there n /\ filter keep (warnings s') = filter keep (warnings s))
    \/ (~ there n /\ filter keep (warnings s') = filter keep (warnings s) ++ filter keep (flat_map rows (tables n)))).
  { intros m3 W E. destruct (extract_source src (node_pos n)) as [[y|]|] eqn:X; [| |discriminate].
    - injection E as <-. left. split; [|cbn; rewrite W; reflexivity]. exists y. exact X.
    - right. split; [|exact (Fmt _ W E)]. intros [z Z]. congruence. }
  destruct (skip s) eqn:K; cbn [mode_of] in *.
  - right. split; [left; reflexivity|exact (Fmt _ W2 E3)].
  - apply seqa_ok in E3. destruct E3 as (m3 & E3 & E4). injection E3 as <-.
    destruct (Ver (set_skip SkipNone m2) W2 E4) as [[X F]|[X F]]; [left|right]; auto.
  - rewrite section_frozen. destruct (is_section_heading n) eqn:H.
    + apply seqa_ok in E3. destruct E3 as (m3 & E3 & E4). injection E3 as <-. right.
      split; [left; reflexivity|exact (Fmt (set_skip SkipNone m2) W2 E4)].
    + destruct (Ver m2 W2 E3) as [[X F]|[X F]]; [left|right]; auto.
  - destruct (Ver m2 W2 E3) as [[X F]|[X F]]; [left|right]; auto.
Qed.
Lemma doc_run_gives : forall tail prev cs s s', doc_run U PN ENT o B src ends_nl checks tail prev cs s s' ->
  forallb no_document cs = true ->
  exists ts, formatted_tables there (mode_of (skip s)) cs ts
    /\ filter keep (warnings s') = filter keep (warnings s) ++ filter keep (flat_map rows ts).
Proof.
  intros tail prev cs s s' H. induction H; intro D;
    try (cbn [forallb] in D; apply andb_true_iff in D; destruct D as [Dn D]).
  - exists []. split; [constructor|]. cbn [flat_map filter]. rewrite app_nil_r. apply keep_same.
    rewrite (output_trailing_warnings U o checks _ _ _ _ H0). exact (flush_all_warnings _ _ _ _ _ _ H).
  - destruct (IHdoc_run D) as (ts & F & Q). exists ts. split; [apply ft_note; assumption|exact Q].
  - destruct (IHdoc_run D) as (ts & F & Q). exists ts. split; [apply ft_trailing; assumption|exact Q].
  - exists []. split; [apply ft_file; assumption|]. cbn [flat_map filter]. rewrite app_nil_r. apply keep_same. exact (file_warnings _ _ _ _ _ _ _ _ _ H1).
  - destruct (IHdoc_run D) as (ts & F & Q). exists ts. rewrite (directive_warnings _ _ _ _ _ _ _ _ _ H2) in Q. split; [|exact Q].
    apply directive_run in H2; [|exact H0]. destruct H2 as (_ & _ & _ & _ & M). rewrite M in F. eapply ft_directive; eassumption.
  - destruct (IHdoc_run D) as (ts & F & Q). pose proof (block_gives _ _ _ _ _ Dn H0) as C.
    apply block_run in H0; [|exact src_lines|exact Dn]. destruct H0 as (_ & _ & _ & _ & _ & M & _). rewrite M in F.
    destruct C as [(Fr & X & W)|(Fr & W)].
    + exists ts. rewrite Q, W. split; [eapply ft_kept; eassumption|reflexivity].
    + exists (tables n ++ ts). split; [apply ft_here; assumption|]. rewrite Q, W, flat_map_app, filter_app, app_assoc. reflexivity.
Qed.
Lemma notes_run_gives : forall cs s s', notes_run U PN ENT o B src ends_nl checks cs s s' -> forallb no_document cs = true ->
  skip s' = skip s /\ filter keep (warnings s') = filter keep (warnings s) ++ filter keep (flat_map rows (note_tables cs)).
Proof.
  intros cs s s' H. induction H; intro D; try (cbn [forallb] in D; apply andb_true_iff in D; destruct D as [Dn D]).
  - split; [reflexivity|]. cbn. rewrite app_nil_r. reflexivity.
  - destruct (IHnotes_run D) as (S & Q). pose proof (serialize_inner _ _ _ _ _ _ _ _ _ _ _ _ Dn H0) as [S1 _ _ _ _ _]. split; [congruence|].
    rewrite Q, (gives_serialize _ _ Dn _ _ H0). unfold note_tables. cbn [flat_map]. destruct H as [name V]. rewrite V, flat_map_app, filter_app, app_assoc. reflexivity.
  - destruct (IHnotes_run D) as (S & Q). split; [exact S|]. rewrite Q. unfold note_tables. cbn [flat_map].
    destruct (node_value n) eqn:V; try reflexivity. exfalso. apply H. eexists. exact V.
Qed.
Theorem document_gives : forall p cs s', forallb no_document cs = true ->
  serialize_root U PN ENT o B src ends_nl checks (Node NDocument p cs) = Ok s' ->
  exists us ts, check_undefined checks src (Node NDocument p cs) = Ok us /\ formatted_tables there Format cs ts
    /\ filter keep (warnings s') = filter keep (us ++ flat_map rows (note_tables cs ++ ts)).
Proof.
  intros p cs s' D E. apply root_steps in E. destruct E as (ws & m1 & m2 & C & L & N & R).
  destruct (notes_run_gives _ _ _ N D) as (S & Q2). destruct (doc_run_gives _ _ _ _ _ R D) as (ts & F & Q3).
  assert (Bd : built U o checks false (only_warnings (fun _ => False)) (collect_reference_lines (Node NDocument p cs))) by (apply built_collect_lines; apply any_refs).
  pose proof (built_inner _ _ _ _ _ Bd _ _ L) as [S1 _ _ _ _ _].
  destruct (built_warnings _ _ _ _ _ _ Bd _ _ L) as ([|x xs] & Q1 & F1); [|inversion F1; contradiction].
  rewrite app_nil_r in Q1. rewrite S, S1 in F. exists ws, ts. split; [exact C|]. split; [exact F|].
  rewrite Q3, Q2, Q1. cbn [warnings set_warnings]. rewrite flat_map_app, !filter_app, <- app_assoc. reflexivity.
Qed.
End Warned.

(** What is formatted is determined. *)
Lemma formatted_unique : forall (there : node -> Prop) m cs ts, formatted_tables there m cs ts -> forall ts', formatted_tables there m cs ts' -> ts' = ts.
Proof.
  intros there m cs ts H. induction H; intros ts' H';
    inversion H'; subst; try reflexivity; try contradiction; try (exfalso; congruence);
    try (match goal with IH : forall ts', _ -> ts' = ?t |- _ => apply IH; assumption end);
    try (f_equal; match goal with IH : forall ts', _ -> ts' = ?t |- _ => apply IH; assumption end);
    try (exfalso; match goal with
      | A : note_definition ?n, B : directs ?n _ |- _ => exact (directs_not_note _ _ B A)
      | A : trails ?n _, B : directs ?n _ |- _ => exact (directs_not_trails _ _ _ B A)
      | A : note_definition ?n, B : ordinary ?n _ |- _ => exact (proj1 B A)
      | A : trails ?n _, B : ordinary ?n _ |- _ => exact (proj1 (proj2 B) A)
      | A : directs ?n _, B : ordinary ?n _ |- _ => exact (proj2 (proj2 B) _ A)
      | A : directs ?n ?d, B : directs ?n ?e |- _ => pose proof (directs_unique _ _ _ A B); congruence
      | A : frozen _ _ = true, B : frozen _ _ = false \/ ~ _, X : there _ |- _ => destruct B as [B|B]; [congruence|exact (B X)]
      end).
  match goal with A : directs ?n ?d, B : directs ?n ?e |- _ => pose proof (directs_unique _ _ _ A B); subst end. auto.
Qed.
