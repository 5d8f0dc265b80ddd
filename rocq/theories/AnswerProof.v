(** Runs in which formatters return the same code go side by side (C61). *)
From Coq Require Import Bool Arith NArith Lia ZifyBool ZifyNat ZifyN String List.
From Verif Require Import Base BaseFacts OptsModel PunctModel WrapModel CodeModel TableModel HeadingModel AstModel StateModel
  InlineModel EscapeModel WarnModel SerModel SpecContext SpecCode StateProof SpecAnswer CodeProof.
Import ListNotations.

Section Answer.
Variable U : Uni.
Variable PN : list (str * str).
Variable ENT : str -> option str.
Variable o : Options.
Variable fs : list (str * CodeFormatter).
Variable B B' : backend.
Variable src : list str.
Variable ends_nl : bool.
Variable checks : bool.
Local Notation p := (with_formatters o fs).
Local Notation good := (returns_same o B fs B').
Definition agreed (info code : str) : Prop := forall language i j, asked_as o info language ->
  answer fs B' j language code = answer (code_formatters o) B i language code.
Lemma good_code : forall n info literal, good n -> node_value n = NCodeBlock info literal -> agreed info literal.
Proof. intros [v q cs] info literal G V. cbn in V. subst v. intros language i j A. eapply G; [apply within_here|exact A]. Qed.
Lemma good_children : forall v q cs, good (Node v q cs) -> Forall good cs.
Proof. intros v q cs G. apply Forall_forall. intros c Ic info code q' cs' language i j W A. eapply G; [eapply within_below; [exact Ic|exact W]|exact A]. Qed.

(** ** What does not look at formatters *)
Lemma E_inline : collect_inline U ENT p src = collect_inline U ENT o src. Proof. reflexivity. Qed.
Lemma E_content : inline_content U ENT p src = inline_content U ENT o src. Proof. reflexivity. Qed.
Lemma E_paragraph : paragraph U ENT p src = paragraph U ENT o src. Proof. reflexivity. Qed.
Lemma E_heading : heading U PN ENT p src = heading U PN ENT o src. Proof. reflexivity. Qed.
Lemma E_table : table U ENT p src = table U ENT o src. Proof. reflexivity. Qed.
Lemma E_image : image U ENT p src = image U ENT o src. Proof. reflexivity. Qed.
Lemma E_flush : flush_all U p checks = flush_all U o checks. Proof. reflexivity. Qed.
Lemma E_directive : directive_act U p checks = directive_act U o checks. Proof. reflexivity. Qed.
Lemma E_disable : disable_file U p src ends_nl checks = disable_file U o src ends_nl checks. Proof. reflexivity. Qed.
Lemma E_details : details_paragraph U ENT p src = details_paragraph U ENT o src. Proof. reflexivity. Qed.
Lemma E_base : item_base_indent p = item_base_indent o. Proof. reflexivity. Qed.
Lemma E_head : item_head p = item_head o. Proof. reflexivity. Qed.

(** ** States *)
Definition other (s : st) (ws : list warning) (cl : list call) : st :=
  mkSt (output s) (cx s) (pending_references s) (emitted_references s) (footnotes s) (skip s) ws
    (proper_nouns s) (common_nouns s) cl (trace s).
Definition agree (a b : list warning) : Prop := about_document b = about_document a.
Definition meet (r r' : res st) : Prop :=
  match r, r' with
  | Ok s, Ok t => exists ws cl, t = other s ws cl /\ agree (warnings s) ws
  | Panic, Panic => True
  | _, _ => False
  end.
Definition par (a b : act) : Prop := forall s ws cl, agree (warnings s) ws -> meet (a s) (b (other s ws cl)).
Lemma agree_app : forall a b x y, agree a b -> agree x y -> agree (a ++ x) (b ++ y).
Proof. unfold agree, about_document. intros a b x y H K. rewrite !filter_app, H, K. reflexivity. Qed.

Lemma par_nop : par nop nop.
Proof. intros s ws cl A. exists ws, cl. auto. Qed.
Lemma par_panic : par panic panic.
Proof. intros s ws cl A. exact Logic.I. Qed.
Lemma par_seq : forall a b x y, par a b -> par x y -> par (a ;; x) (b ;; y).
Proof.
  intros a b x y H K s ws cl A. unfold seqa. specialize (H s ws cl A). destruct (a s) as [s'|], (b (other s ws cl)) as [t'|]; cbn [rbind meet] in *; try contradiction; [|exact Logic.I].
  destruct H as (ws' & cl' & -> & A'). apply K. exact A'.
Qed.
Lemma par_all : forall l m, Forall2 par l m -> par (all l) (all m).
Proof. intros l m H. induction H; cbn [all fold_right]; [apply par_nop|]. apply par_seq; assumption. Qed.
Lemma par_each : forall A (f g : A -> act) l, (forall x, par (f x) (g x)) -> par (all (map f l)) (all (map g l)).
Proof. intros A f g l H. apply par_all. induction l; cbn [map]; constructor; auto. Qed.
Lemma par_get : forall A (f : st -> A) h h', (forall s ws cl, f (other s ws cl) = f s) -> (forall x, par (h x) (h' x)) -> par (get f h) (get f h').
Proof. intros A f h h' F H s ws cl Ag. unfold get. rewrite F. apply H. exact Ag. Qed.
Lemma par_upd0 : forall f, (forall s ws cl, f (other s ws cl) = other (f s) ws cl) -> (forall s, warnings (f s) = warnings s) -> par (upd f) (upd f).
Proof. intros f H W s ws cl A. exists ws, cl. rewrite H, W. auto. Qed.
Lemma par_emit : forall x, par (emit x) (emit x).
Proof. intro x. apply par_upd0; reflexivity. Qed.
Lemma par_updc : forall f, par (updc f) (updc f).
Proof. intro f. apply par_upd0; reflexivity. Qed.
Lemma par_log : forall e, par (log e) (log e).
Proof. intro e. apply par_upd0; reflexivity. Qed.
Lemma par_warn : forall a, par (upd (fun s => set_warnings (warnings s ++ a) s)) (upd (fun s => set_warnings (warnings s ++ a) s)).
Proof. intros a s ws cl A. exists (ws ++ a), cl. split; [reflexivity|]. cbn. apply agree_app; [exact A|reflexivity]. Qed.
Lemma par_use : forall r, par (add_reference r) (add_reference r).
Proof.
  intro r. apply par_upd0; intro s; [intros ws cl|]; cbn; destruct (f_collecting (footnotes s)); reflexivity.
Qed.
Lemma par_events : forall evs, par (all (map do_event evs)) (all (map do_event evs)).
Proof. intro evs. apply par_each. intros [r|x]; cbn [do_event]; [apply par_use|apply par_log]. Qed.
Lemma par_inline : forall v h h', (forall x, par (h x) (h' x)) -> par (inline v h) (inline v h').
Proof. intros [[x e]|] h h' H; cbn [inline]; [|apply par_panic]. apply par_seq; [apply par_events|apply H]. Qed.

(** ** Code *)
Definition silent (ws : list warning) : Prop := about_document ws = [].
Definition twins (f g : nat -> str * effects) : Prop :=
  forall i j, fst (g j) = fst (f i) /\ silent (eff_warnings (snd (f i))) /\ silent (eff_warnings (snd (g j))).
Lemma par_code : forall f g, twins f g -> par (code_act f) (code_act g).
Proof.
  intros f g T. unfold code_act, get. intros s ws cl A. specialize (T (List.length (calls s)) (List.length (calls (other s ws cl)))).
  destruct (f _) as [x e]. destruct (g _) as [y e']. cbn [fst snd] in T. destruct T as (-> & S1 & S2).
  unfold seqa, upd, log, emit. cbn. eexists _, _. split; [reflexivity|]. cbn. apply agree_app; [exact A|]. unfold agree. rewrite S2. symmetry. exact S1.
Qed.
Definition alike (f g : nat -> str * str * effects) : Prop :=
  forall i j, fst (g j) = fst (f i) /\ silent (eff_warnings (snd (f i))) /\ silent (eff_warnings (snd (g j))).
Lemma try_silent : forall q C i language code, silent (eff_warnings (snd (try_format_code q C i language code))).
Proof.
  intros q C i language code. unfold try_format_code. destruct C as [run|[cb|]]; [|reflexivity|reflexivity].
  destruct (assoc_str _ _); [|reflexivity]. destruct (run _ _ _ _); reflexivity.
Qed.
Lemma try_answer : forall q C i language code,
  match fst (try_format_code q C i language code) with Some x => x | None => code end = answer (code_formatters q) C i language code.
Proof.
  intros q C i language code. unfold try_format_code, answer. destruct C as [run|[cb|]]; [|reflexivity|reflexivity].
  destruct (assoc_str _ _); [|reflexivity]. destruct (run _ _ _ _); reflexivity.
Qed.
Lemma words_some : forall s, Forall (fun w => w <> []) (split_whitespace s).
Proof.
  assert (K : forall s cur, Forall (fun w => w <> []) (split_ws_aux cur s)).
  { induction s as [|x r IH]; intros cur; cbn.
    - destruct (is_nil cur) eqn:E; auto. constructor; auto. apply is_nil_false in E. intro K. apply E. destruct cur; auto. cbn in K. destruct (rev cur); discriminate.
    - destruct (is_ws x); auto. destruct (is_nil cur) eqn:E; auto. constructor; auto. apply is_nil_false in E. intro K. apply E. destruct cur; auto. cbn in K. destruct (rev cur); discriminate. }
  intro s. apply K.
Qed.
Lemma alike_parts : forall info literal, agreed info literal -> alike (fun i => code_parts o B i info literal) (fun j => code_parts p B' j info literal).
Proof.
  intros info literal G i j. unfold code_parts. destruct (parse_code_info info) as [[l out] sk] eqn:PI. cbv zeta. change (default_language p) with (default_language o).
  set (language := if is_nil l then default_language o else l). destruct (negb (is_nil language) && negb sk) eqn:E; [|repeat split].
  assert (N : asked_as o info language).
  { apply andb_true_iff in E. destruct E as [E1 E2]. split; [intro Q; rewrite Q in E1; discriminate E1|].
    unfold parse_code_info in PI. unfold marked_no_format, block_language. pose proof (split_whitespace_trim info) as ST. pose proof (trim_nil_split info) as TN.
    destruct (trim info) as [|c t] eqn:T; cbn [is_nil] in PI.
    - injection PI as <- _ <-. destruct TN as [TN _]. rewrite (TN eq_refl). split; [intros []|reflexivity].
    - injection PI as L _ S. rewrite ST in L, S. split.
      + intro Q. apply negb_true_iff in E2. rewrite <- S in E2. assert (X : existsb (fun w => seqb w no_format_keyword) (split_whitespace info) = true).
        { apply existsb_exists. eexists. split; [exact Q|]. apply seqb_true. reflexivity. } congruence.
      + unfold language. rewrite <- L. destruct (split_whitespace info) as [|w ws] eqn:W; [reflexivity|].
        assert (Nw : w <> []) by (pose proof (words_some info) as F; rewrite W in F; apply Forall_inv in F; exact F). destruct w; [contradiction|reflexivity]. }
  pose proof (try_silent o B i language literal) as S1. pose proof (try_silent p B' j language literal) as S2.
  pose proof (try_answer o B i language literal) as A1. pose proof (try_answer p B' j language literal) as A2.
  pose proof (G language i j N) as Q. change (code_formatters p) with fs in A2.
  destruct (try_format_code o B i language literal) as [x e]. destruct (try_format_code p B' j language literal) as [y e']. cbn [fst snd] in *.
  rewrite A1, A2, Q. repeat split; assumption.
Qed.
Lemma twins_block : forall q info literal, agreed info literal -> twins (fun n => code_block o B q n info literal) (fun n => code_block p B' q n info literal).
Proof.
  intros q info literal G i j. pose proof (alike_parts info literal G i j) as H. cbn beta in H. unfold code_block.
  destruct (code_parts o B i info literal) as [[a b] e]. destruct (code_parts p B' j info literal) as [[a' b'] e']. cbn [fst snd] in *.
  destruct H as (E & H). injection E as -> ->. split; [reflexivity|exact H].
Qed.
Lemma twins_indented : forall q info literal k, agreed info literal -> twins (fun n => code_block_indented o B q n info literal k) (fun n => code_block_indented p B' q n info literal k).
Proof.
  intros q info literal k G i j. pose proof (alike_parts info literal G i j) as H. cbn beta in H. unfold code_block_indented.
  destruct (code_parts o B i info literal) as [[a b] e]. destruct (code_parts p B' j info literal) as [[a' b'] e']. cbn [fst snd] in *.
  destruct H as (E & H). injection E as -> ->. split; [reflexivity|exact H].
Qed.
Lemma twins_with : forall info literal k, agreed info literal -> twins (fun n => code_block_with_indent o B n info literal k) (fun n => code_block_with_indent p B' n info literal k).
Proof.
  intros info literal k G i j. pose proof (alike_parts info literal G i j) as H. cbn beta in H. unfold code_block_with_indent.
  destruct (code_parts o B i info literal) as [[a b] e]. destruct (code_parts p B' j info literal) as [[a' b'] e']. cbn [fst snd] in *.
  destruct H as (E & H). injection E as -> ->. split; [reflexivity|exact H].
Qed.

(** ** Footnotes and references *)
Ltac pg := apply par_get; [reflexivity|intro].
Ltac pu := apply par_upd0; reflexivity.
Lemma par_ensure : par ensure_blank_line ensure_blank_line.
Proof. pg. destruct (ends_with _ x); [apply par_nop|]. destruct (ends_with _ x); apply par_emit. Qed.
Lemma par_write_references : forall l, par (all (map write_reference l)) (all (map write_reference l)).
Proof. intro l. apply par_each. intro r. apply par_seq; [apply par_log|]. apply par_seq; [apply par_emit|pu]. Qed.
Lemma par_flush_references : par flush_references flush_references.
Proof.
  pg. destruct (is_nil x); [apply par_nop|]. pg. cbv zeta. apply par_seq; [pu|]. destruct (is_nil _); [apply par_nop|].
  apply par_seq; [apply par_ensure|apply par_write_references].
Qed.
Lemma par_write_footnote : forall f, par (write_footnote U o checks f) (write_footnote U o checks f).
Proof.
  intro f. unfold write_footnote. destruct (footnote_text U o checks f) as [t|]; [|apply par_panic]. apply par_seq; [apply par_log|].
  apply par_seq; [apply par_emit|pu].
Qed.
Lemma par_flush_footnotes : forall b, par (flush_footnotes_before U o checks b) (flush_footnotes_before U o checks b).
Proof.
  intro b. pg. destruct (is_nil _); [apply par_nop|]. cbv zeta. apply par_seq; [pu|]. destruct (is_nil _); [apply par_nop|].
  apply par_seq; [apply par_ensure|]. apply par_each. apply par_write_footnote.
Qed.
Lemma par_flush_note_references : forall b, par (flush_footnote_references_before b) (flush_footnote_references_before b).
Proof.
  intro b. pg. destruct (is_nil _); [apply par_nop|]. pg. cbv zeta. apply par_seq; [pu|]. destruct (is_nil _); [apply par_nop|].
  apply par_seq; [apply par_ensure|apply par_write_references].
Qed.
Lemma par_flush_all : forall b, par (flush_all U o checks b) (flush_all U o checks b).
Proof. intro b. apply par_seq; [apply par_flush_footnotes|]. apply par_seq; [apply par_flush_references|apply par_flush_note_references]. Qed.
Lemma par_record : forall name l, par (record_reference_line name l) (record_reference_line name l).
Proof. intros name l. apply par_upd0; intro s; [intros ws cl|]; cbn; destruct (assoc_str _ _); reflexivity. Qed.
Lemma par_collect_lines : forall n, par (collect_reference_lines n) (collect_reference_lines n).
Proof.
  induction n as [v q cs IH] using node_ind'. cbn [collect_reference_lines]. apply par_seq.
  - destruct v; try apply par_nop. apply par_record.
  - apply par_all. induction IH as [|c cs H _ IH]; cbn [map]; constructor; assumption.
Qed.

(** ** Blocks *)
Definition kpar (l l' : kids) : Prop := Forall2 (fun x y => fst y = fst x /\ good (fst x) /\ par (snd x) (snd y)) l l'.
Lemma kpar_fst : forall l l', kpar l l' -> map fst l' = map fst l.
Proof. intros l l' H. induction H as [|x y l l' (E & _ & _) H IH]; [reflexivity|]. cbn [map]. congruence. Qed.
Lemma kpar_last : forall l l', kpar l l' -> last_child l' = last_child l.
Proof.
  intros l l' H. induction H as [|[n a] [m b] l l' (E & _ & _) H IH]; [reflexivity|]. cbn [fst] in E. subst m. cbn [last_child].
  inversion H; subst; [reflexivity|]. destruct x, y. exact IH.
Qed.
Lemma par_children : forall l l', kpar l l' -> par (children_acts l) (children_acts l').
Proof. intros l l' H. apply par_all. induction H as [|x y l l' (_ & _ & R) H IH]; cbn [map]; constructor; assumption. Qed.

Ltac rs :=
  lazymatch goal with
  | |- par nop nop => apply par_nop
  | |- par panic panic => apply par_panic
  | |- par (emit ?x) (emit ?x) => apply par_emit
  | |- par (log _) (log _) => apply par_log
  | |- par (updc _) (updc _) => apply par_updc
  | |- par (upd (fun s => set_warnings (warnings s ++ _) s)) _ => apply par_warn
  | |- par (upd _) (upd _) => apply par_upd0; reflexivity
  | |- par (code_act _) (code_act _) => apply par_code; first [apply twins_block|apply twins_indented|apply twins_with]; eauto using good_code
  | |- par (add_reference _) _ => apply par_use
  | |- par (inline _ _) (inline _ _) => apply par_inline; intros ?
  | |- par (all (map do_event _)) _ => apply par_events
  | |- par ensure_blank_line ensure_blank_line => apply par_ensure
  | |- par (flush_all _ _ _ _) _ => apply par_flush_all
  | |- par (get _ _) (get _ _) => apply par_get; [reflexivity|intros ?]
  | |- par (_ ;; _) (_ ;; _) => apply par_seq
  | |- par (match ?x with _ => _ end) (match ?x with _ => _ end) => destruct x
  | H : par ?a ?b |- par ?a ?b => exact H
  end.
Ltac rt := repeat rs.

Lemma par_blockquote_children : forall l l' i pr f, kpar l l' -> par (blockquote_children i pr f l) (blockquote_children i pr f l').
Proof.
  intros l l' i pr f H. revert f. induction H as [|[n a] [m b] l l' (E & G & R) H IH]; intro f; cbn [blockquote_children fst snd] in *; rt; apply IH.
Qed.
Lemma par_block_quote : forall l l', kpar l l' -> par (block_quote l) (block_quote l').
Proof. intros l l' H. unfold block_quote. rt. apply par_blockquote_children. exact H. Qed.
Lemma par_alert : forall a q l l', kpar l l' -> par (alert a q l) (alert a q l').
Proof.
  intros a q l l' H. unfold alert. apply par_get; [reflexivity|]. intros c. apply par_seq; [apply par_emit|]. apply par_seq; [|apply par_block_quote; exact H].
  inversion H as [|[n x] [m y] ? ? (E & G & R) ?]; subst; [rt|]. cbn [fst] in E. subst m. rt.
Qed.
Lemma par_list : forall kind tight l l', kpar l l' -> par (list_block kind tight l) (list_block kind tight l').
Proof.
  intros kind tight l l' H. unfold list_block. rewrite (kpar_fst _ _ H). apply par_get; [reflexivity|]. intros c. apply par_seq; [pu|].
  apply par_seq; [apply par_children; exact H|]. rt.
Qed.
Lemma par_item_children : forall base l l' prev, kpar l l' -> par (item_children o B base prev l) (item_children p B' base prev l').
Proof.
  intros base l l' prev H. revert prev. induction H as [|[n a] [m b] l l' (E & G & R) H IH]; intro prev; [apply par_nop|]. cbn [fst snd] in *. subst m.
  cbn [item_children]. apply par_seq; [|apply IH]. cbv zeta. destruct (node_value n) eqn:V; rt.
Qed.
Lemma par_item : forall task l l', kpar l l' -> par (list_item o B task l) (list_item p B' task l').
Proof.
  intros task l l' H. unfold list_item. rewrite (kpar_last _ _ H), E_base, E_head. apply par_seq; [apply par_updc|]. apply par_get; [reflexivity|]. intros c. apply par_seq; [apply par_emit|].
  destruct (item_base_indent o c) as [base|]; [|rt]. apply par_seq; [apply par_updc|]. apply par_seq; [apply par_item_children; exact H|]. rt.
Qed.
Lemma par_paragraph : forall n, par (paragraph U ENT o src n) (paragraph U ENT o src n).
Proof.
  intros n. unfold paragraph. destruct (extract_source src (node_pos n)) as [source|]; [|rt]. cbv zeta. rt.
Qed.
Lemma par_heading : forall n level, par (heading U PN ENT o src n level) (heading U PN ENT o src n level).
Proof. intros n level. unfold heading. rt. Qed.
Lemma par_details_paragraph : forall quote marker c, par (details_paragraph U ENT o src quote marker c) (details_paragraph U ENT o src quote marker c).
Proof. intros quote marker c. unfold details_paragraph. rt. Qed.
Lemma par_with_item_indent : forall indent a b, par a b -> par (with_item_indent indent a) (with_item_indent indent b).
Proof. intros indent a b R. unfold with_item_indent. rt. Qed.
Lemma par_details_children : forall quote l l' first, kpar l l' -> par (details_children U ENT o B src quote first l) (details_children U ENT p B' src quote first l').
Proof.
  intros quote l l' first H. revert first. induction H as [|[n a] [m b] l l' (E & G & R) H IH]; intros first; [apply par_nop|]. cbn [fst snd] in *. subst m.
  cbn [details_children]. rewrite E_details. apply par_seq; [|apply IH].
  destruct first; [|apply par_seq; [apply par_emit|]]; destruct (node_value n) eqn:V; rt;
    first [apply par_with_item_indent; exact R | apply par_details_paragraph].
Qed.
Lemma par_details : forall l l', kpar l l' -> par (description_details U ENT o B src l) (description_details U ENT p B' src l').
Proof. intros l l' H. unfold description_details. rt. apply par_details_children. exact H. Qed.
Lemma par_description_list : forall l l' first, kpar l l' -> par (description_list first l) (description_list first l').
Proof.
  intros l l' first H. revert first. induction H as [|[n a] [m b] l l' (E & G & R) H IH]; intro first; [apply par_nop|]. cbn [fst snd] in *.
  cbn [description_list]. rt; apply IH.
Qed.
Lemma par_table : forall q aligns rows, par (table U ENT o src q aligns rows) (table U ENT o src q aligns rows).
Proof. intros q aligns rows. unfold table. rt. Qed.
Lemma par_link : forall next n url title l l', kpar l l' -> par (link U ENT o src next n url title l) (link U ENT p src next n url title l').
Proof.
  intros next n url title l l' H. unfold link. cbv zeta. rewrite (kpar_fst _ _ H). pose proof (par_children _ _ H) as C. rt.
Qed.
Lemma par_image : forall n url title, par (image U ENT o src n url title) (image U ENT o src n url title).
Proof. intros n url title. unfold image. rt. Qed.
Lemma par_single : forall a b h h', par a b -> (forall x, par (h x) (h' x)) -> par (single_block a h) (single_block b h').
Proof. intros a b h h' R H. unfold single_block. rt. apply H. Qed.
Lemma par_footnote_blocks : forall l l' r first f f', kpar l l' -> (forall x, par (f x) (f' x)) -> par (footnote_blocks r first l f) (footnote_blocks r first l' f').
Proof.
  intros l l' r first f f' H F. revert r first. induction H as [|[n a] [m b] l l' (E & G & R) H IH]; intros r first; cbn [footnote_blocks]; [apply F|].
  apply par_single; [exact R|]. intro x. apply IH.
Qed.
Lemma par_footnote_definition : forall name cs l l', kpar l l' ->
  par (footnote_definition U ENT o src name cs l) (footnote_definition U ENT p src name cs l').
Proof.
  intros name cs l l' H. unfold footnote_definition. rewrite E_inline. apply par_get; [reflexivity|].
  intro line. cbv zeta. apply par_seq; [pu|].
  assert (Fin : forall f, par (set_collecting false 0 ;; add_footnote f) (set_collecting false 0 ;; add_footnote f))
    by (intros f; apply par_seq; pu).
  destruct (footnote_has_blocks cs).
  + apply par_footnote_blocks; [exact H|]. intro x. apply Fin.
  + apply par_inline. intro x. apply Fin.
Qed.
Lemma par_output_trailing : forall cs first, par (output_trailing first cs) (output_trailing first cs).
Proof. induction cs as [|c cs IH]; intro first; cbn [output_trailing]; rt; apply IH. Qed.
Lemma par_document_block : forall prev c a b, par a b -> par (document_block U o src checks prev c a) (document_block U p src checks prev c b).
Proof.
  intros prev c a b R. unfold document_block. rewrite E_flush. apply par_seq; [|apply par_seq; [apply par_emit|]].
  - destruct (heading_level c) as [[|[|[|[|?]]]]|], prev; first [apply par_nop|apply par_flush_all].
  - apply par_get; [reflexivity|]. intro m. cbv zeta. rt.
Qed.
Lemma par_directive : forall prev c literal d, par (directive_act U o checks prev c literal d) (directive_act U o checks prev c literal d).
Proof. intros prev c literal d. unfold directive_act. cbv zeta. destruct d; rt. Qed.
Lemma par_disable_file : forall c literal, par (disable_file U o src ends_nl checks c literal) (disable_file U o src ends_nl checks c literal).
Proof. intros c literal. unfold disable_file. rt. Qed.
Lemma par_document_loop : forall l l' ts prev f f', kpar l l' -> par f f' ->
  par (document_loop U o src ends_nl checks ts prev l f) (document_loop U p src ends_nl checks ts prev l' f').
Proof.
  intros l l' ts prev f f' H F. revert ts prev. induction H as [|[n a] [m b] l l' (E & G & R) H IH]; intros ts prev; cbn [document_loop]; [exact F|].
  cbn [fst snd] in *. subst m. cbv zeta. rewrite E_directive, E_disable. pose proof (IH (ts - 1) (Some n)) as C.
  destruct ((ts =? 0) && is_html_block n); [apply IH|]. destruct (is_footnote_def n); [apply IH|].
  assert (D : par (document_block U o src checks prev n a ;; document_loop U o src ends_nl checks (ts - 1) (Some n) l f)
                  (document_block U p src checks prev n b ;; document_loop U p src ends_nl checks (ts - 1) (Some n) l' f'))
    by (apply par_seq; [apply par_document_block; assumption|exact C]).
  destruct (node_value n); try exact D. destruct (directive_of n) as [d|]; [|exact D].
  destruct d; try (apply par_seq; [apply par_directive|exact C]). apply par_disable_file.
Qed.
Lemma par_document : forall n l l', kpar l l' ->
  par (document U o src ends_nl checks n l) (document U p src ends_nl checks n l').
Proof.
  intros n l l' H. unfold document. cbv zeta. rewrite (kpar_fst _ _ H), E_flush. destruct (check_undefined checks src n) as [ws|]; [|rt].
  apply par_seq; [apply par_warn|]. apply par_seq; [|apply par_seq].
  - apply par_collect_lines.
  - apply par_all. induction H as [|[m a] [m' b] l l' (E & G & R) H IH]; cbn [map fst snd] in *; constructor; [|exact IH]. subst m'. rt.
  - apply par_document_loop; [exact H|]. apply par_seq; [apply par_flush_all|apply par_output_trailing].
Qed.
Lemma kpar_next : forall (f g : option node -> node -> act) cs, Forall good cs -> Forall (fun c => forall nx, par (f nx c) (g nx c)) cs ->
  kpar (combine cs (with_next f cs)) (combine cs (with_next g cs)).
Proof.
  intros f g cs Gs H. induction H as [|c cs Hc H IH]; cbn [with_next combine]; [constructor|]. apply Forall_cons_iff in Gs. destruct Gs as [Gc Gs]. constructor; cbn [fst snd]; [|apply IH; exact Gs].
  split; [reflexivity|]. split; [exact Gc|apply Hc].
Qed.
Theorem par_serialize : forall n next, good n ->
  par (serialize U PN ENT o B src ends_nl checks next n) (serialize U PN ENT p B' src ends_nl checks next n).
Proof.
  induction n as [v q cs IH] using node_ind'. intros next G. pose proof (good_children _ _ _ G) as Gs.
  assert (K : kpar (combine cs (with_next (serialize U PN ENT o B src ends_nl checks) cs)) (combine cs (with_next (serialize U PN ENT p B' src ends_nl checks) cs))).
  { apply kpar_next; [exact Gs|]. rewrite Forall_forall in IH, Gs |- *. intros c Ic nx. apply (IH c Ic). apply Gs. exact Ic. }
  cbn [serialize]. cbv zeta. rewrite ?E_paragraph, ?E_heading, ?E_table, ?E_image.
  destruct v;
    first [ apply par_document; exact K | apply par_block_quote; exact K | apply par_list; exact K
          | apply par_item; exact K | apply par_description_list; exact K | apply par_details; exact K
          | apply par_paragraph | apply par_heading | apply par_footnote_definition; exact K
          | apply par_table | apply (par_link _ _ _ _ _ _ K) | apply par_image | apply par_alert; exact K | apply par_children; exact K
          | unfold thematic_break ]; rt; first [apply par_children; exact K|apply par_record|apply par_emit].
Qed.
Theorem root_answer : forall n, good n ->
  meet (serialize_root U PN ENT o B src ends_nl checks n) (serialize_root U PN ENT p B' src ends_nl checks n).
Proof.
  intros n G. unfold serialize_root. pose proof (par_serialize n None G) as P. apply (P init_st [] []). reflexivity.
Qed.
End Answer.
