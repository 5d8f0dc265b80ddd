(** Every step succeeds (C31). *)
From Coq Require Import Bool Arith NArith Lia ZifyBool ZifyNat ZifyN String List Permutation.
From Verif Require Import Base BaseFacts OptsModel WrapModel CodeModel TableModel HeadingModel AstModel StateModel
  InlineModel WarnModel SerModel SpecState SpecContext StateProof PropsState SerFacts RefProof SpecSafe.
Import ListNotations.

Definition wok (w : W) : Prop := w <> Panic.
Lemma wok_ret : forall x, wok (wret x).
Proof. discriminate. Qed.
Lemma wok_use : forall x l u t, wok (wuse x l u t).
Proof. discriminate. Qed.
Lemma wok_app : forall a b, wok a -> wok b -> wok (wapp a b).
Proof. intros [x|] [y|] A B; try contradiction; discriminate. Qed.
Lemma wok_bind : forall a f, wok a -> (forall x, wok (f x)) -> wok (wbind a f).
Proof.
  intros [[x e]|] f A F; [|contradiction]. unfold wbind. cbn [rbind fst snd]. specialize (F x).
  destruct (f x); [discriminate|contradiction].
Qed.
Lemma wok_rbind : forall A (r : res A) f, r <> Panic -> (forall x, wok (f x)) -> wok (rbind r f).
Proof. intros A [x|] f R F; [apply F|contradiction]. Qed.
Lemma wok_cat : forall l, Forall wok l -> wok (wcat l).
Proof. intros l H. induction H; [apply wok_ret|apply wok_app; assumption]. Qed.
Lemma wok_reference : forall op t l u i, wok (format_reference op t l u i).
Proof. intros. unfold format_reference. destruct (strip_prefix _ _); [|destruct (seqb _ _)]; discriminate. Qed.

Section Safe.
Variable U : Uni.
Variable PN : list (str * str).
Variable ENT : str -> option str.
Variable o : Options.
Variable B : backend.
Variable src : list str.
Variable ends_nl : bool.
Variable checks : bool.

Definition good (n : node) : Prop := forall m, within m n -> ~ backward src (node_pos m).
Lemma good_here : forall n, good n -> extract_source src (node_pos n) <> Panic.
Proof. intros n G E. apply (G n (within_here n)). apply C32_panics_exactly. exact E. Qed.
Lemma good_below : forall v p cs c, In c cs -> good (Node v p cs) -> good c.
Proof. intros v p cs c I G m Wm. apply G. eapply within_below; eassumption. Qed.
Lemma good_pos : forall v p cs, good (Node v p cs) -> extract_source src p <> Panic.
Proof. intros v p cs G. apply (good_here _ G). Qed.
Lemma emphasis_ok : forall n, good n -> emphasis_delimiter src n <> Panic.
Proof.
  intros n G. unfold emphasis_delimiter. destruct (text_contains _ _); [discriminate|]. pose proof (good_here n G) as H.
  destruct (extract_source src (node_pos n)) as [[s|]|]; [| |contradiction]; cbn [rbind]; [destruct (starts_with _ _)|]; discriminate.
Qed.
Lemma strong_ok : forall n, good n -> strong_delimiter src n <> Panic.
Proof.
  intros n G. unfold strong_delimiter. destruct (text_contains _ _); [discriminate|]. pose proof (good_here n G) as H.
  destruct (extract_source src (node_pos n)) as [[s|]|]; [| |contradiction]; cbn [rbind]; [destruct (starts_with _ _)|]; discriminate.
Qed.
Lemma style_ok : forall n, good n -> reference_style_of src (node_pos n) <> Panic.
Proof.
  intros n G. unfold reference_style_of. pose proof (good_here n G) as H.
  destruct (extract_source src (node_pos n)) as [[s|]|]; [| |contradiction]; discriminate.
Qed.
Lemma wok_text : forall v p cs t, good (Node v p cs) -> wok (inline_text U ENT o src p t).
Proof. intros v p cs t G. unfold inline_text. cbv zeta. apply wok_rbind; [eapply good_pos; exact G|]. intros [x|]; discriminate. Qed.
Lemma wok_code : forall v p cs t, good (Node v p cs) -> wok (inline_code src p t).
Proof. intros v p cs t G. unfold inline_code. apply wok_rbind; [eapply good_pos; exact G|]. intros x; discriminate. Qed.
Lemma wok_collect_text : forall n, good n -> wok (collect_text U ENT o src n).
Proof.
  induction n as [v p cs IH] using node_ind'. intro G.
  assert (K : wok (wcat (map (collect_text U ENT o src) cs))).
  { apply wok_cat. apply Forall_map. rewrite Forall_forall in *. intros c I. apply (IH c I). eapply good_below; eassumption. }
  cbn [collect_text]. destruct v; try exact K; try apply wok_ret; try (eapply wok_text; exact G); try (eapply wok_code; exact G).
  - apply wok_rbind; [apply emphasis_ok; exact G|]. intro d. repeat apply wok_app; try apply wok_ret. exact K.
  - apply wok_rbind; [apply strong_ok; exact G|]. intro d. repeat apply wok_app; try apply wok_ret. exact K.
  - apply wok_rbind; [apply (style_ok _ G)|]. intros [[t l]|]; [apply wok_reference|]. cbv zeta. destruct (is_external_url url); discriminate.
Qed.
Lemma next_forall : forall A (P : A -> Prop) (f : option node -> node -> A) cs, (forall c nx, In c cs -> P (f nx c)) -> Forall P (with_next f cs).
Proof.
  intros A P f cs. induction cs as [|c cs IH]; intro H; cbn [with_next]; constructor; [apply H; left; reflexivity|].
  apply IH. intros d nx I. apply H. right. exact I.
Qed.
Lemma wok_collect_inline : forall n next, good n -> wok (collect_inline U ENT o src next n).
Proof.
  induction n as [v p cs IH] using node_ind'. intros next G.
  assert (K : wok (wcat (with_next (collect_inline U ENT o src) cs))).
  { apply wok_cat. apply next_forall. rewrite Forall_forall in IH. intros c nx I. apply (IH c I). eapply good_below; eassumption. }
  cbn [collect_inline]. cbv zeta. destruct v; try exact K; try apply wok_ret; try (eapply wok_text; exact G); try (eapply wok_code; exact G).
  - apply wok_rbind; [apply emphasis_ok; exact G|]. intro d. repeat apply wok_app; try apply wok_ret. exact K.
  - apply wok_rbind; [apply strong_ok; exact G|]. intro d. repeat apply wok_app; try apply wok_ret. exact K.
  - apply wok_rbind; [apply (style_ok _ G)|]. intros [[t l]|].
    + destruct (existsb is_image cs); [|apply wok_reference]. repeat apply wok_app; [apply wok_ret|exact K|apply wok_use].
    + destruct (existsb is_image cs); [repeat apply wok_app; [apply wok_ret|exact K|apply wok_ret]|].
      destruct (_ && _); [apply wok_ret|]. destruct (is_external_url url); (apply wok_bind; [exact K|]); intro x; discriminate.
  - apply wok_rbind; [apply (style_ok _ G)|]. intros [[t l]|]; [apply wok_reference|]. apply wok_bind; [exact K|]. intro x; discriminate.
Qed.
Lemma wok_all : forall cs, (forall c, In c cs -> good c) -> wok (wcat (with_next (collect_inline U ENT o src) cs)).
Proof. intros cs H. apply wok_cat. apply next_forall. intros c nx I. apply wok_collect_inline. apply H. exact I. Qed.
Lemma good_kids : forall n, good n -> forall c, In c (node_children n) -> good c.
Proof. intros [v p cs] G c I. eapply good_below; eassumption. Qed.
Lemma wok_content : forall n, good n -> wok (inline_content U ENT o src n).
Proof. intros n G. apply wok_all. apply good_kids. exact G. Qed.

(** ** Actions *)
Definition note_ok (f : footnote) : Prop := checks = true -> fn_has_blocks f = false -> label_fits U o (fn_name f).
Definition pend (s : st) : Prop := Forall (fun kv => note_ok (snd kv)) (f_pending (footnotes s)).
Definition safe (d : nat) (a : act) : Prop := forall s, pend s -> d <= list_depth (cx s) ->
  exists s', a s = Ok s' /\ pend s' /\ list_depth (cx s') = list_depth (cx s).
Lemma safe_mono : forall d e a, d <= e -> safe d a -> safe e a.
Proof. intros d e a L H s P D. apply H; [exact P|lia]. Qed.
Lemma safe_nop : forall d, safe d nop.
Proof. intros d s P D. exists s. auto. Qed.
Lemma safe_seq : forall d a b, safe d a -> safe d b -> safe d (a ;; b).
Proof.
  intros d a b A Bb s P D. destruct (A s P D) as (m & E & Pm & Dm). destruct (Bb m Pm ltac:(lia)) as (s' & E' & P' & D').
  exists s'. unfold seqa. rewrite E. cbn [rbind]. split; [exact E'|]. split; [exact P'|congruence].
Qed.
Lemma safe_all : forall d l, Forall (safe d) l -> safe d (all l).
Proof. intros d l H. induction H; cbn [all fold_right]; [apply safe_nop|apply safe_seq; assumption]. Qed.
Lemma safe_get : forall d A (f : st -> A) k, (forall x, safe d (k x)) -> safe d (get f k).
Proof. intros d A f k K s. apply K. Qed.
Lemma safe_get_if : forall d A (P : A -> Prop) (f : st -> A) k, (forall s, pend s -> d <= list_depth (cx s) -> P (f s)) ->
  (forall x, P x -> safe d (k x)) -> safe d (get f k).
Proof. intros d A P f k F K s Q D. apply K; [apply F; assumption|assumption|assumption]. Qed.
Lemma safe_cx : forall d k, (forall c, d <= list_depth c -> safe d (k c)) -> safe d (get cx k).
Proof. intros d k K. apply (safe_get_if d _ (fun c => d <= list_depth c)); auto. Qed.
Lemma safe_upd : forall d f, (forall s, f_pending (footnotes (f s)) = f_pending (footnotes s) /\ list_depth (cx (f s)) = list_depth (cx s)) -> safe d (upd f).
Proof. intros d f F s P D. exists (f s). destruct (F s) as [X Y]. split; [reflexivity|]. unfold pend. rewrite X. auto. Qed.
Lemma safe_updc : forall d f, (forall c, list_depth (f c) = list_depth c) -> safe d (updc f).
Proof. intros d f F. apply safe_upd. intro s. split; [reflexivity|apply F]. Qed.
Lemma safe_emit : forall d x, safe d (emit x).
Proof. intros d x. apply safe_upd. intro s. split; reflexivity. Qed.
Lemma safe_log : forall d x, safe d (log x).
Proof. intros d x. apply safe_upd. intro s. split; reflexivity. Qed.
Lemma safe_ensure : forall d, safe d ensure_blank_line.
Proof. intro d. apply safe_get. intro x. destruct (ends_with _ x); [apply safe_nop|]. destruct (ends_with _ x); apply safe_emit. Qed.
Lemma safe_write_reference : forall d r, safe d (write_reference r).
Proof. intros d r. unfold write_reference. repeat apply safe_seq; try apply safe_emit; apply safe_upd; intro s; split; reflexivity. Qed.
Lemma note_text : forall f, note_ok f -> footnote_text U o checks f <> Panic.
Proof.
  intros f H. unfold footnote_text. cbv zeta. destruct (fn_has_blocks f) eqn:Hb; [discriminate|].
  unfold note_ok in H. unfold sub_usize.
  set (pre := lit "[^" ++ fn_name f ++ lit "]: ") in *.
  assert (BL : byte_len (spaces (byte_len pre)) = byte_len pre).
  { generalize (byte_len pre). intro n. induction n as [|n IH]; [reflexivity|]. unfold spaces, repc in *. cbn [repeat].
    unfold byte_len in *. cbn [fold_right]. rewrite IH. reflexivity. }
  rewrite BL. destruct checks.
  - destruct (H eq_refl Hb) as [H1 H2]. fold pre in H1, H2. rewrite (proj2 (Nat.leb_le _ _) H1), (proj2 (Nat.leb_le _ _) H2). cbn [rbind].
    destruct (is_nil _); discriminate.
  - destruct (_ <=? _); cbn [rbind]; (destruct (_ <=? _)); cbn [rbind]; destruct (is_nil _); discriminate.
Qed.
Lemma safe_write_footnote : forall d f, note_ok f -> safe d (write_footnote U o checks f).
Proof.
  intros d f H. unfold write_footnote. pose proof (note_text f H) as N. destruct (footnote_text U o checks f); [|contradiction].
  repeat apply safe_seq; [apply safe_log|apply safe_emit|]; apply safe_upd; intro s; split; reflexivity.
Qed.
Lemma safe_flush_references : forall d, safe d flush_references.
Proof.
  intro d. unfold flush_references. apply safe_get. intro p. destruct (is_nil p); [apply safe_nop|]. apply safe_get. intro em. cbv zeta.
  apply safe_seq; [apply safe_upd; intro s; split; reflexivity|]. destruct (is_nil _); [apply safe_nop|]. apply safe_seq; [apply safe_ensure|].
  apply safe_all. apply Forall_map. apply Forall_forall. intros r _. apply safe_write_reference.
Qed.
Lemma safe_notes : forall d g, Forall (fun kv => note_ok (snd kv)) (f_pending g) -> safe d (upd (set_footnotes g)).
Proof. intros d g H s P D. exists (set_footnotes g s). split; [reflexivity|]. split; [exact H|reflexivity]. Qed.
Lemma safe_footnotes : forall d k, (forall g, Forall (fun kv => note_ok (snd kv)) (f_pending g) -> safe d (k g)) -> safe d (get footnotes k).
Proof. intros d k K. apply (safe_get_if d _ (fun g => Forall (fun kv => note_ok (snd kv)) (f_pending g))); [|exact K]. auto. Qed.
Lemma safe_flush_note_refs : forall d l, safe d (flush_footnote_references_before l).
Proof.
  intros d l. unfold flush_footnote_references_before. apply safe_footnotes. intros f F. destruct (is_nil _); [apply safe_nop|]. apply safe_get. intro em. cbv zeta.
  apply safe_seq; [apply safe_notes; exact F|]. destruct (is_nil _); [apply safe_nop|]. apply safe_seq; [apply safe_ensure|].
  apply safe_all. apply Forall_map. apply Forall_forall. intros r _. apply safe_write_reference.
Qed.
Lemma insert_ok : forall k v m, note_ok v -> Forall (fun kv => note_ok (snd kv)) m -> Forall (fun kv => note_ok (snd kv)) (imap_insert k v m).
Proof.
  intros k v m V M. apply Forall_forall. intros x I. apply imap_insert_in in I. rewrite Forall_forall in M. destruct I as [I|I]; [subst x; exact V|apply M; exact I].
Qed.
Lemma reinsert_ok : forall l m, Forall (fun kv => note_ok (snd kv)) l -> Forall (fun kv => note_ok (snd kv)) m ->
  Forall (fun kv : str * footnote => note_ok (snd kv)) (fold_left (fun m kv => imap_insert (fst kv) (snd kv) m) l m).
Proof. intros l m H. revert m. induction H; intros m M; [exact M|]. cbn [fold_left]. apply IHForall. apply insert_ok; assumption. Qed.
Lemma filter_ok : forall A (P : A -> Prop) f l, Forall P l -> Forall P (filter f l).
Proof. intros A P f l H. rewrite Forall_forall in *. intros x I. apply filter_In in I. apply H. apply I. Qed.
Lemma safe_flush_notes : forall d l, safe d (flush_footnotes_before U o checks l).
Proof.
  intros d l. unfold flush_footnotes_before. apply safe_footnotes. intros f F. destruct (is_nil _); [apply safe_nop|]. cbv zeta.
  apply safe_seq; [apply safe_notes; apply reinsert_ok; [|constructor]; do 2 apply filter_ok; exact F|].
  destruct (is_nil _); [apply safe_nop|]. apply safe_seq; [apply safe_ensure|].
  apply safe_all. apply Forall_map. eapply Permutation_Forall; [apply flush_order_perm|]. apply Forall_map.
  do 2 apply filter_ok. eapply Forall_impl; [|exact F]. intros kv K. apply safe_write_footnote. exact K.
Qed.
Lemma safe_flush_all : forall d l, safe d (flush_all U o checks l).
Proof. intros d l. unfold flush_all. repeat apply safe_seq; [apply safe_flush_notes|apply safe_flush_references|apply safe_flush_note_refs]. Qed.
Lemma safe_use : forall d r, safe d (add_reference r).
Proof. intros d r. apply safe_upd. intro s. cbv zeta. destruct (f_collecting (footnotes s)); split; reflexivity. Qed.
Lemma safe_record : forall d n l, safe d (record_reference_line n l).
Proof. intros d n l. apply safe_upd. intro s. cbv zeta. destruct (assoc_str _ _); split; reflexivity. Qed.
Lemma safe_collecting : forall d b l, safe d (set_collecting b l).
Proof. intros d b l. apply safe_upd. intro s. split; reflexivity. Qed.
Lemma safe_add_footnote : forall d f, note_ok f -> safe d (add_footnote f).
Proof.
  intros d f H s P D. eexists. split; [reflexivity|]. split; [|reflexivity]. apply insert_ok; assumption.
Qed.
Lemma safe_inline : forall d w k, wok w -> (forall x, safe d (k x)) -> safe d (inline w k).
Proof.
  intros d [[x e]|] k Wk K; [|contradiction]. cbn [inline]. apply safe_seq; [|apply K]. apply safe_all. apply Forall_map. apply Forall_forall.
  intros [r|y] _; [apply safe_use|apply safe_log].
Qed.
Lemma safe_code : forall d f, safe d (code_act f).
Proof.
  intros d f. unfold code_act. apply safe_get. intro n. destruct (f n) as [text eff]. repeat apply safe_seq; [|apply safe_log|apply safe_emit].
  apply safe_upd. intro s. split; reflexivity.
Qed.
Ltac ss :=
  lazymatch goal with
  | |- safe _ nop => apply safe_nop
  | |- safe _ (emit _) => apply safe_emit
  | |- safe _ (log _) => apply safe_log
  | |- safe _ (upd _) => apply safe_upd; intro; split; reflexivity
  | |- safe _ (updc _) => apply safe_updc; intro; reflexivity
  | |- safe _ (flush_all _ _ _ _) => apply safe_flush_all
  | |- safe _ (code_act _) => apply safe_code
  | |- safe _ (record_reference_line _ _) => apply safe_record
  | |- safe _ (set_collecting _ _) => apply safe_collecting
  | |- safe _ (add_reference _) => apply safe_use
  | |- safe _ ensure_blank_line => apply safe_ensure
  | |- safe _ (get cx _) => apply safe_cx; intros ? ?
  | |- safe _ (get _ _) => apply safe_get; intro
  | |- safe _ (_ ;; _) => apply safe_seq
  | |- safe _ (match ?x with _ => _ end) => destruct x
  | H : safe ?d ?a |- safe ?d ?a => exact H
  end.
Ltac sf := repeat ss.

(** ** Blocks *)
Definition ksafe (d : nat) (k : kids) : Prop := Forall (fun x => safe d (snd x)) k.
Lemma ksafe_mono : forall d e k, d <= e -> ksafe d k -> ksafe e k.
Proof. intros d e k L H. eapply Forall_impl; [|exact H]. intros x S. eapply safe_mono; eassumption. Qed.
Lemma safe_children : forall d k, ksafe d k -> safe d (children_acts k).
Proof. intros d k H. apply safe_all. apply Forall_map. exact H. Qed.
Lemma safe_blockquote_children : forall d k i pr f, ksafe d k -> safe d (blockquote_children i pr f k).
Proof. intros d k i pr f H. revert f. induction H as [|[n a] k R H IH]; intro f; cbn [blockquote_children snd] in *; sf; apply IH. Qed.
Lemma safe_block_quote : forall d k, ksafe 0 k -> safe d (block_quote k).
Proof.
  intros d k H s P D. unfold block_quote, get. unfold seqa at 1. cbn [updc upd rbind].
  destruct (safe_blockquote_children 0 k (list_item_indent (cx s)) (blockquote_prefix (cx s)) true H (set_cx (enter_blockquote (cx s)) s) P (Nat.le_0_l _))
    as (m & E & Pm & Dm). unfold seqa. rewrite E. cbn [rbind updc upd]. eexists. split; [reflexivity|]. split; [exact Pm|reflexivity].
Qed.
Lemma safe_alert : forall d a p k, ksafe 0 k -> safe d (alert a p k).
Proof. intros d a p k H. unfold alert. sf; apply safe_block_quote; exact H. Qed.
Lemma safe_list : forall d kind tight k, ksafe 1 k -> safe d (list_block kind tight k).
Proof.
  intros d kind tight k H s P D. unfold list_block, get. unfold seqa at 1. cbn [updc upd rbind].
  destruct (safe_children 1 k H (set_cx (enter_list kind tight (map fst k) (cx s)) s) P) as (m & E & Pm & Dm); [cbn; lia|].
  unfold seqa at 1. rewrite E. cbn [rbind]. cbn in Dm. unfold seqa. rewrite Dm.
  replace (list_depth (cx s) + 1 =? 0) with false by (symmetry; apply Nat.eqb_neq; lia). cbn [nop rbind updc upd].
  eexists. split; [reflexivity|]. split; [exact Pm|]. cbn. lia.
Qed.
Lemma safe_item_children : forall d base k prev, ksafe d k -> safe d (item_children o B base prev k).
Proof.
  intros d base k prev H. revert prev. induction H as [|[n a] k R H IH]; intro prev; [apply safe_nop|]. cbn [snd] in R.
  cbn [item_children]. apply safe_seq; [|apply IH]. cbv zeta. sf.
Qed.
Lemma safe_item : forall task k, ksafe 1 k -> safe 1 (list_item o B task k).
Proof.
  intros task k H. unfold list_item. apply safe_seq; [sf|]. apply safe_cx. intros c C. apply safe_seq; [sf|].
  assert (X : item_base_indent o c <> Panic).
  { unfold item_base_indent. cbv zeta. replace (list_depth c =? 0) with false by (symmetry; apply Nat.eqb_neq; lia).
    destruct (in_description_details c); [discriminate|]. destruct (1 <? list_depth c); discriminate. }
  destruct (item_base_indent o c) as [base|]; [|contradiction]. pose proof (safe_item_children 1 base k None H) as Y. sf.
Qed.
Lemma safe_paragraph : forall d n, good n -> safe d (paragraph U ENT o src n).
Proof.
  intros d n G. unfold paragraph. cbv zeta. pose proof (good_here n G) as X. destruct (extract_source src (node_pos n)) as [source|]; [|contradiction].
  match goal with |- safe _ (match ?x with Some _ => _ | None => _ end) => destruct x end; [sf|].
  apply safe_inline; [apply wok_content; exact G|]. intro x. sf.
Qed.
Lemma safe_heading : forall d n l, good n -> safe d (heading U PN ENT o src n l).
Proof. intros d n l G. apply safe_inline; [apply wok_collect_text; exact G|]. intro x. sf. Qed.
Lemma safe_details_paragraph : forall d q m child, good child -> safe d (details_paragraph U ENT o src q m child).
Proof.
  intros d q m child G. unfold details_paragraph. apply safe_seq; [sf|]. apply safe_inline; [apply wok_content; exact G|]. intro x. sf.
Qed.
Lemma safe_with_item_indent : forall d i a, safe d a -> safe d (with_item_indent i a).
Proof. intros d i a A. unfold with_item_indent. sf. Qed.
Lemma safe_details_children : forall d q k first, ksafe d k -> Forall (fun x => good (fst x)) k -> safe d (details_children U ENT o B src q first k).
Proof.
  intros d q k first H G. revert first. induction H as [|[n a] k R H IH]; intro first; [apply safe_nop|]. cbn [snd] in R.
  inversion G as [|? ? Gn Gk]; subst. cbn [fst] in Gn.
  cbn [details_children]. apply safe_seq; [|apply IH; exact Gk].
  sf; first [apply safe_with_item_indent; exact R | apply safe_details_paragraph; exact Gn].
Qed.
Lemma safe_details : forall d k, ksafe d k -> Forall (fun x => good (fst x)) k -> safe d (description_details U ENT o B src k).
Proof.
  intros d k H G. unfold description_details. apply safe_cx. intros c C. repeat apply safe_seq; [sf| |sf]. apply safe_details_children; assumption.
Qed.
Lemma safe_description_list : forall d k first, ksafe d k -> safe d (description_list first k).
Proof. intros d k first H. revert first. induction H as [|[n a] k R H IH]; intro first; [apply safe_nop|]. cbn [snd] in R. cbn [description_list]. sf; apply IH. Qed.
Lemma rcollect_ok : forall l, Forall wok l -> rcollect l <> Panic.
Proof.
  intros l H. induction H as [|w l Wk H IH]; [discriminate|]. cbn [rcollect]. destruct w; [|contradiction]. cbn [rbind].
  destruct (rcollect l); [discriminate|contradiction].
Qed.
Lemma table_rows_ok : forall rows, (forall r, In r rows -> good r) -> table_rows U ENT o src rows <> Panic.
Proof.
  induction rows as [|r rows IH]; intro G; [discriminate|]. cbn [table_rows].
  assert (R : rcollect (map (inline_content U ENT o src) (node_children r)) <> Panic).
  { apply rcollect_ok. apply Forall_map. apply Forall_forall. intros c I. apply wok_content. eapply good_kids; [apply G; left; reflexivity|exact I]. }
  destruct (rcollect _); [|contradiction]. cbn [rbind]. specialize (IH (fun x I => G x (or_intror I))).
  destruct (table_rows _ _ _ _ rows); [discriminate|contradiction].
Qed.
Lemma safe_table : forall d p aligns rows, (forall r, In r rows -> good r) -> safe d (table U ENT o src p aligns rows).
Proof.
  intros d p aligns rows G. unfold table. destruct (is_nil rows); [sf|]. apply safe_seq; [sf|]. pose proof (table_rows_ok rows G) as X.
  destruct (table_rows _ _ _ _ rows) as [[cells evs]|]; [|contradiction]. apply safe_seq; [|sf].
  apply safe_all. apply Forall_map. apply Forall_forall. intros [r|y] _; sf; [apply safe_use|apply safe_log].
Qed.
Lemma safe_link : forall d next n url title k, good n -> ksafe d k -> safe d (link U ENT o src next n url title k).
Proof.
  intros d next n url title k G H. unfold link. cbv zeta. pose proof (safe_children _ _ H) as Ck. pose proof (style_ok n G) as X.
  destruct (reference_style_of src (node_pos n)) as [info|]; [|contradiction].
  sf; (apply safe_inline; [|intro; sf]); [apply wok_reference| |]; (apply wok_bind; [apply wok_collect_text; exact G|]); intro; discriminate.
Qed.
Lemma safe_image : forall d n url title, good n -> safe d (image U ENT o src n url title).
Proof.
  intros d n url title G. apply safe_inline; [|intro; sf]. pose proof (wok_collect_text n G) as C. apply wok_rbind; [apply style_ok; exact G|]. intros [[t l]|].
  - apply wok_bind; [|intro; apply wok_reference]. unfold unwritten. apply wok_rbind; [exact C|]. discriminate.
  - apply wok_bind; [exact C|]. discriminate.
Qed.
Lemma safe_single : forall d a k, safe d a -> (forall x, safe d (k x)) -> safe d (single_block a k).
Proof. intros d a k A K. unfold single_block. sf; apply K. Qed.
Lemma safe_footnote_blocks : forall d k r first f, ksafe d k -> (forall x, safe d (f x)) -> safe d (footnote_blocks r first k f).
Proof.
  intros d k r first f H F. revert r first. induction H as [|[n a] k R H IH]; intros r first; cbn [footnote_blocks]; [apply F|].
  apply safe_single; [exact R|]. intro x. apply IH.
Qed.
Lemma has_blocks_plain : forall v p cs, footnote_has_blocks cs = false -> plain_note (Node v p cs).
Proof.
  intros v p cs H. unfold footnote_has_blocks in H. apply orb_false_iff in H. destruct H as [H1 H2]. split; cbn [node_children].
  - intros c I. destruct (node_value c) eqn:V; try exact Logic.I;
      (exfalso; assert (X : existsb (fun c => match node_value c with NCodeBlock _ _ | NBlockQuote | NList _ _ | NTable _ => true | _ => false end) cs = true);
       [apply existsb_exists; exists c; rewrite V; auto|congruence]).
  - intros a b c x y -> X Y. apply Nat.ltb_ge in H2. rewrite filter_app in H2. cbn [filter] in H2.
    assert (PX : is_paragraph x = true) by (unfold is_paragraph; rewrite X; reflexivity).
    assert (PY : is_paragraph y = true) by (unfold is_paragraph; rewrite Y; reflexivity).
    rewrite PX, filter_app in H2. cbn [filter] in H2. rewrite PY in H2. repeat (rewrite app_length in H2; cbn [List.length] in H2). lia.
Qed.
Lemma safe_footnote : forall d v p name cs k, ksafe d k -> (forall c, In c cs -> good c) ->
  (checks = true -> plain_note (Node v p cs) -> label_fits U o name) -> safe d (footnote_definition U ENT o src name cs k).
Proof.
  intros d v p name cs k H G L. unfold footnote_definition. apply safe_get. intro line. cbv zeta. apply safe_seq; [sf|].
  assert (N : forall x, note_ok (mkFootnote name x line (footnote_has_blocks cs))).
  { intros x Ck Hb. apply L; [exact Ck|]. apply has_blocks_plain. exact Hb. }
  destruct (footnote_has_blocks cs).
  - apply safe_footnote_blocks; [exact H|]. intro x. apply safe_seq; [sf|]. apply safe_add_footnote. apply N.
  - apply safe_inline; [apply wok_all; exact G|]. intro x. apply safe_seq; [sf|]. apply safe_add_footnote. apply N.
Qed.

(** ** Documents *)
Lemma disabled_ok : forall cs, (checks = true -> forall c, In c cs -> 1 <= start_line (node_pos c)) -> disabled_ranges checks cs <> Panic.
Proof.
  induction cs as [|c cs IH]; intro L; [discriminate|]. cbn [disabled_ranges].
  assert (E : forall p, end_before checks p cs <> Panic).
  { intro p. unfold end_before. destruct (find p cs) as [n|] eqn:F; [|discriminate]. apply find_some in F. unfold line_before.
    destruct (start_line (node_pos n)) eqn:S; [|discriminate]. destruct checks; [|discriminate]. specialize (L eq_refl n (or_intror (proj1 F))). lia. }
  assert (D : directive_ranges checks c cs <> Panic).
  { unfold directive_ranges. destruct (directive_of c) as [d|]; [|discriminate]. cbv zeta. pose proof (E is_section_heading) as E1. pose proof (E is_enable) as E2.
    destruct d; try discriminate; [destruct cs as [|x r]; [discriminate|]; destruct (directive_of x); discriminate| |];
      [destruct (end_before checks is_section_heading cs); [discriminate|contradiction]|destruct (end_before checks is_enable cs); [discriminate|contradiction]]. }
  destruct (directive_ranges checks c cs); [|contradiction]. cbn [rbind]. specialize (IH (fun Ck x I => L Ck x (or_intror I))).
  destruct (disabled_ranges checks cs); [discriminate|contradiction].
Qed.
Lemma safe_output_trailing : forall d cs first, safe d (output_trailing first cs).
Proof. intro d. induction cs as [|c cs IH]; intro first; cbn [output_trailing]; [sf|]. destruct (node_value c); sf; apply IH. Qed.
Lemma safe_document_block : forall d prev child a, good child -> safe d a -> safe d (document_block U o src checks prev child a).
Proof.
  intros d prev child a G A. unfold document_block. cbv zeta. pose proof (good_here child G) as X.
  destruct (extract_source src (node_pos child)) as [source|]; [|contradiction]. sf.
Qed.
Lemma safe_directive : forall d prev child literal x, safe d (directive_act U o checks prev child literal x).
Proof. intros. unfold directive_act. cbv zeta. destruct x; sf. Qed.
Lemma safe_disable_file : forall d child literal, safe d (disable_file U o src ends_nl checks child literal).
Proof. intros. unfold disable_file. sf. Qed.
Lemma safe_document_loop : forall d k ts prev f, ksafe d k -> Forall (fun x => good (fst x)) k -> safe d f ->
  safe d (document_loop U o src ends_nl checks ts prev k f).
Proof.
  intros d k ts prev f H G F. revert ts prev. induction H as [|[n a] k R H IH]; intros ts prev; cbn [document_loop]; [exact F|]. cbn [snd] in R.
  inversion G as [|? ? Gn Gk]; subst. cbn [fst] in Gn. cbv zeta. pose proof (IH Gk (ts - 1) (Some n)) as C.
  destruct ((ts =? 0) && is_html_block n); [exact C|]. destruct (is_footnote_def n); [exact C|].
  assert (D : safe d (document_block U o src checks prev n a ;; document_loop U o src ends_nl checks (ts - 1) (Some n) k f))
    by (apply safe_seq; [apply safe_document_block; assumption|exact C]).
  destruct (node_value n); try exact D. destruct (directive_of n) as [x|]; [|exact D].
  destruct x; try (apply safe_seq; [apply safe_directive|exact C]). apply safe_disable_file.
Qed.
Lemma safe_collect_lines : forall d n, safe d (collect_reference_lines n).
Proof.
  intros d n. induction n as [v pos cs IH] using node_ind'. cbn [collect_reference_lines]. apply safe_seq; [destruct v; sf|].
  apply safe_all. apply Forall_map. exact IH.
Qed.
Lemma safe_document : forall d n k, (checks = true -> forall c, In c (node_children n) -> 1 <= start_line (node_pos c)) ->
  ksafe d k -> Forall (fun x => good (fst x)) k -> safe d (document U o src ends_nl checks n k).
Proof.
  intros d n k L H G. unfold document. cbv zeta.
  assert (X : check_undefined checks src n <> Panic).
  { unfold check_undefined. destruct (is_nil src); [discriminate|]. pose proof (disabled_ok _ L) as D.
    destruct (disabled_ranges checks (node_children n)); [discriminate|contradiction]. }
  destruct (check_undefined checks src n) as [ws|]; [|contradiction].
  apply safe_seq; [sf|]. apply safe_seq; [apply safe_collect_lines|]. apply safe_seq.
  - apply safe_all. apply Forall_map. eapply Forall_impl; [|exact H]. intros [m a] A. cbn [fst snd] in *. sf.
  - apply safe_document_loop; [exact H|exact G|]. apply safe_seq; [sf|apply safe_output_trailing].
Qed.

(** The kinds that need a list around them start at depth 1. *)
Definition need (v : value) : nat := if is_item v then 1 else 0.
Definition fine (n : node) : Prop := good n
  /\ (checks = true -> forall m, within m n -> 1 <= start_line (node_pos m))
  /\ (checks = true -> forall m name, within m n -> node_value m = NFootnoteDefinition name -> plain_note m -> label_fits U o name).
Lemma fine_below : forall v p cs c, In c cs -> fine (Node v p cs) -> fine c.
Proof.
  intros v p cs c I (G & L & N). split; [eapply good_below; eassumption|]. split.
  - intros Ck m Wm. apply (L Ck). eapply within_below; eassumption.
  - intros Ck m name Wm. apply (N Ck). eapply within_below; eassumption.
Qed.
Theorem safe_serialize : forall n next b, well_placed b n = true -> fine n ->
  safe (need (node_value n)) (serialize U PN ENT o B src ends_nl checks next n).
Proof.
  induction n as [v p cs IH] using node_ind'. intros next b P F. cbn [node_value].
  cbn [well_placed] in P. apply andb_true_iff in P. destruct P as [_ P]. rewrite forallb_forall in P. rewrite Forall_forall in IH.
  assert (G : good (Node v p cs)) by apply F.
  assert (GK : Forall (fun x => good (fst x)) (combine cs (with_next (serialize U PN ENT o B src ends_nl checks) cs))).
  { apply Forall_forall. intros [c a] I. apply in_combine_l in I. eapply good_below; eassumption. }
  assert (K1 : ksafe 1 (combine cs (with_next (serialize U PN ENT o B src ends_nl checks) cs))).
  { assert (H : forall c nx, In c cs -> safe 1 (serialize U PN ENT o B src ends_nl checks nx c)).
    { intros c nx I. eapply safe_mono; [|eapply (IH c I); [apply P; exact I|eapply fine_below; eassumption]]. unfold need. destruct (is_item _); lia. }
    clear - H. induction cs as [|c cs IHc]; cbn [with_next combine]; constructor; [apply H; left; reflexivity|]. apply IHc. intros d nx I. apply H. right. exact I. }
  assert (K0 : is_list_kind v = false -> ksafe 0 (combine cs (with_next (serialize U PN ENT o B src ends_nl checks) cs))).
  { intro NL. assert (H : forall c nx, In c cs -> safe 0 (serialize U PN ENT o B src ends_nl checks nx c)).
    { intros c nx I. pose proof (P c I) as Pc. rewrite NL in Pc. assert (Z : need (node_value c) = 0).
      { destruct c as [vc pc cc]. cbn [well_placed] in Pc. apply andb_true_iff in Pc. destruct Pc as [Pc _]. unfold need. cbn [node_value].
        destruct (is_item vc); [discriminate Pc|reflexivity]. }
      rewrite <- Z. eapply (IH c I); [exact Pc|eapply fine_below; eassumption]. }
    clear - H. induction cs as [|c cs IHc]; cbn [with_next combine]; constructor; [apply H; left; reflexivity|]. apply IHc. intros d nx I. apply H. right. exact I. }
  assert (KG : forall c, In c cs -> good c) by (intros c I; eapply good_below; eassumption).
  pose proof (good_pos _ _ _ G) as GP.
  cbn [serialize]. cbv zeta.
  destruct v; cbn [is_list_kind need is_item] in *; try specialize (K0 eq_refl);
    first [ apply safe_document; [intros Ck c I; apply (proj1 (proj2 F) Ck); eapply within_below; [exact I|apply within_here]|exact K0|exact GK]
          | apply safe_block_quote; exact K0 | apply safe_list; exact K1
          | apply safe_item; exact K1 | apply safe_description_list; exact K0 | apply safe_details; [exact K0|exact GK]
          | apply safe_paragraph; exact G | apply safe_heading; exact G
          | apply safe_table; exact KG | apply safe_link; [exact G|exact K0] | apply safe_image; exact G
          | apply safe_alert; exact K0 | apply safe_children; exact K0
          | eapply safe_footnote; [exact K0|exact KG|intros Ck Pl; eapply (proj2 (proj2 F) Ck); [apply within_here|reflexivity|exact Pl]]
          | idtac ]; unfold thematic_break.
  all: try (destruct (extract_source src p); [|contradiction]).
  all: sf; try (apply safe_children; exact K0).
Qed.
End Safe.
