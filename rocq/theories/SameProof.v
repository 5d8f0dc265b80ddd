(** Two runs whose options differ only in the punctuation settings go side by
    side: same context, same formatter calls, same warnings, same code. *)
From Coq Require Import Bool Arith NArith Lia ZifyBool ZifyNat ZifyN String List.
From Verif Require Import Base BaseFacts OptsModel PunctModel WrapModel CodeModel TableModel HeadingModel AstModel StateModel
  InlineModel WarnModel SerModel SpecContext CodeProof StateProof SerFacts SpecSame.
Import ListNotations.

(** The punctuation settings alone. *)
Record punct := mkPunct { p_double : bool; p_single : bool; p_apostrophes : bool; p_ellipsis : bool; p_en : DashSetting; p_em : DashSetting }.
Definition with_punct (o : Options) (q : punct) : Options :=
  mkOptions (line_width o) (setext_h1 o) (setext_h2 o) (heading_sentence_case o) (heading_proper_nouns o)
    (heading_common_nouns o) (unordered_marker o) (leading_spaces o) (trailing_spaces o) (indent_width o)
    (odd_level_marker o) (even_level_marker o) (ordered_list_pad o) (ordered_list_indent_width o)
    (fence_char o) (min_fence_length o) (space_after_fence o) (default_language o) (thematic_break_style o)
    (thematic_break_leading_spaces o) (p_double q) (p_single q) (p_apostrophes q) (p_ellipsis q) (p_en q) (p_em q)
    (code_formatters o).
Definition punct_of (o : Options) : punct :=
  mkPunct (curly_double_quotes o) (curly_single_quotes o) (curly_apostrophes o) (ellipsis o) (en_dash o) (em_dash o).
Lemma differ_with : forall o p, differ_in_punctuation o p -> p = with_punct o (punct_of p).
Proof.
  intros o p H. unfold differ_in_punctuation in H. destruct p. cbn in *.
  repeat (match goal with X : _ /\ _ |- _ => destruct X end). subst. reflexivity.
Qed.

(** Footnotes without their content. *)
Definition erase (f : footnote) : footnote := mkFootnote (fn_name f) [] (fn_reference_line f) (fn_has_blocks f).
Definition erase_kv (kv : str * footnote) : str * footnote := (fst kv, erase (snd kv)).

Definition agree (s t : st) : Prop :=
  cx s = cx t /\ skip s = skip t /\ warnings s = warnings t /\ calls s = calls t
  /\ f_reference_lines (footnotes s) = f_reference_lines (footnotes t)
  /\ f_emitted (footnotes s) = f_emitted (footnotes t)
  /\ map erase_kv (f_pending (footnotes s)) = map erase_kv (f_pending (footnotes t))
  /\ codes (trace s) = codes (trace t).
Definition both {A} (P : A -> A -> Prop) (x y : res A) : Prop :=
  match x, y with Ok a, Ok b => P a b | Panic, Panic => True | _, _ => False end.
Definition rel (a b : act) : Prop := forall s t, agree s t -> both agree (a s) (b t).

Lemma codes_app : forall a b, codes (a ++ b) = codes a ++ codes b.
Proof. induction a as [|[] a IH]; intro b; cbn [codes app]; rewrite ?IH; reflexivity. Qed.

Ltac agree_open := unfold agree in *; cbn [set_output set_cx set_pending set_emitted set_footnotes set_skip set_warnings set_nouns
  set_calls set_trace output cx pending_references emitted_references footnotes skip warnings proper_nouns common_nouns calls trace
  f_reference_lines f_emitted f_pending f_pending_references f_collecting f_current_line] in *.

Lemma rel_nop : rel nop nop.
Proof. intros s t H. exact H. Qed.
Lemma rel_panic : rel panic panic.
Proof. intros s t H. exact I. Qed.
Lemma rel_seq : forall a a' b b', rel a a' -> rel b b' -> rel (a ;; b) (a' ;; b').
Proof.
  intros a a' b b' A B s t H. unfold seqa. specialize (A s t H). destruct (a s), (a' t); cbn [both rbind] in *; try contradiction; try exact I.
  apply B. exact A.
Qed.
Lemma rel_all : forall l m, Forall2 rel l m -> rel (all l) (all m).
Proof. intros l m H. induction H; cbn [all fold_right]; [apply rel_nop|]. apply rel_seq; assumption. Qed.
Lemma rel_get : forall A (P : A -> A -> Prop) f k k', (forall s t, agree s t -> P (f s) (f t)) -> (forall x y, P x y -> rel (k x) (k' y)) ->
  rel (get f k) (get f k').
Proof. intros A P f k k' F K s t H. unfold get. apply (K (f s) (f t)); [apply F; exact H|exact H]. Qed.
Lemma rel_get_eq : forall A (f : st -> A) k k', (forall s t, agree s t -> f s = f t) -> (forall x, rel (k x) (k' x)) ->
  rel (get f k) (get f k').
Proof. intros A f k k' F K. apply (rel_get A eq); [exact F|]. intros x y <-. apply K. Qed.
Lemma rel_get_any : forall A (f : st -> A) k k', (forall x y, rel (k x) (k' y)) -> rel (get f k) (get f k').
Proof. intros A f k k' K. apply (rel_get A (fun _ _ => True)); auto. Qed.
Lemma rel_cx : forall k k', (forall c, rel (k c) (k' c)) -> rel (get cx k) (get cx k').
Proof. intros k k' K. apply rel_get_eq; [|exact K]. intros s t H. apply H. Qed.
Lemma rel_skip : forall k k', (forall c, rel (k c) (k' c)) -> rel (get skip k) (get skip k').
Proof. intros k k' K. apply rel_get_eq; [|exact K]. intros s t H. apply H. Qed.
Lemma rel_emit : forall x y, rel (emit x) (emit y).
Proof. intros x y s t H. unfold emit, upd. cbn [both]. agree_open. exact H. Qed.
Lemma rel_log_code : forall x, rel (log (Code x)) (log (Code x)).
Proof.
  intros x s t H. unfold log, upd. cbn [both]. agree_open. destruct H as (? & ? & ? & ? & ? & ? & ? & E).
  rewrite !codes_app, E. repeat (split; [assumption|]). reflexivity.
Qed.
Lemma rel_log_def : forall r r', rel (log (Def r)) (log (Def r')).
Proof.
  intros r r' s t H. unfold log, upd. cbn [both]. agree_open. destruct H as (? & ? & ? & ? & ? & ? & ? & E).
  rewrite !codes_app, E. repeat (split; [assumption|]). reflexivity.
Qed.
Lemma rel_log_note : forall r r', rel (log (Footnote r)) (log (Footnote r')).
Proof.
  intros r r' s t H. unfold log, upd. cbn [both]. agree_open. destruct H as (? & ? & ? & ? & ? & ? & ? & E).
  rewrite !codes_app, E. repeat (split; [assumption|]). reflexivity.
Qed.
Lemma rel_use : forall r r', rel (add_reference r) (add_reference r').
Proof.
  intros r r' s t H. unfold add_reference, upd. cbn [both]. destruct H as (? & ? & ? & ? & ? & ? & ? & E).
  destruct (f_collecting (footnotes s)), (f_collecting (footnotes t)); agree_open; rewrite !codes_app, E; repeat (split; [assumption|]); reflexivity.
Qed.
Lemma rel_updc : forall f, rel (updc f) (updc f).
Proof. intros f s t H. unfold updc, upd. cbn [both]. agree_open. destruct H as (-> & H). split; [reflexivity|exact H]. Qed.
Lemma rel_warn : forall w, rel (upd (fun s => set_warnings (warnings s ++ w) s)) (upd (fun s => set_warnings (warnings s ++ w) s)).
Proof. intros w s t H. unfold upd. cbn [both]. agree_open. destruct H as (H1 & H2 & -> & H). repeat split; try assumption; apply H. Qed.
Lemma rel_call : forall w c, rel (upd (fun s => set_calls (calls s ++ c) (set_warnings (warnings s ++ w) s)))
  (upd (fun s => set_calls (calls s ++ c) (set_warnings (warnings s ++ w) s))).
Proof. intros w c s t H. unfold upd. cbn [both]. agree_open. destruct H as (H1 & H2 & -> & -> & H). repeat split; try assumption; apply H. Qed.
Lemma rel_set_skip : forall m, rel (upd (set_skip m)) (upd (set_skip m)).
Proof. intros m s t H. unfold upd. cbn [both]. agree_open. destruct H as (H1 & H2 & H). repeat split; try assumption; apply H. Qed.
Lemma rel_set_pending : forall x y, rel (upd (set_pending x)) (upd (set_pending y)).
Proof. intros x y s t H. unfold upd. cbn [both]. agree_open. exact H. Qed.
Lemma rel_set_output : forall x y, rel (upd (set_output x)) (upd (set_output y)).
Proof. intros x y s t H. unfold upd. cbn [both]. agree_open. exact H. Qed.
Lemma rel_set_emitted : forall f g, rel (upd (fun s => set_emitted (f s) s)) (upd (fun s => set_emitted (g s) s)).
Proof. intros f g s t H. unfold upd. cbn [both]. agree_open. exact H. Qed.
Lemma rel_set_nouns : forall f g f' g', rel (upd (fun s => set_nouns (f s) (g s) s)) (upd (fun s => set_nouns (f' s) (g' s) s)).
Proof. intros f g f' g' s t H. unfold upd. cbn [both]. agree_open. exact H. Qed.
Lemma rel_record : forall n l, rel (record_reference_line n l) (record_reference_line n l).
Proof.
  intros n l s t H. unfold record_reference_line, upd. cbn [both]. destruct H as (? & ? & ? & ? & E & ? & ? & ?). rewrite <- E.
  destruct (assoc_str n (f_reference_lines (footnotes s))); agree_open; repeat split; congruence.
Qed.
Lemma rel_set_collecting : forall b l, rel (set_collecting b l) (set_collecting b l).
Proof. intros b l s t H. unfold set_collecting, upd. cbn [both]. agree_open. exact H. Qed.
Lemma map_imap : forall k v m, map erase_kv (imap_insert k v m) = imap_insert k (erase v) (map erase_kv m).
Proof.
  intros k v m. induction m as [|[k' v'] m IH]; [reflexivity|]. cbn [imap_insert map erase_kv fst snd]. destruct (seqb k k'); cbn [map]; [reflexivity|].
  rewrite IH. reflexivity.
Qed.
Lemma rel_add_note : forall f g, erase f = erase g -> rel (add_footnote f) (add_footnote g).
Proof.
  intros f g E s t H. unfold add_footnote, upd. cbn [both]. agree_open. destruct H as (? & ? & ? & ? & ? & ? & Q & ?).
  repeat (split; [assumption|]). split; [|assumption]. rewrite !map_imap, E, Q. injection E as -> _ _. reflexivity.
Qed.
Lemma rel_ensure : rel ensure_blank_line ensure_blank_line.
Proof.
  unfold ensure_blank_line. apply rel_get_any. intros x y.
  destruct (ends_with _ x), (ends_with _ y); try destruct (ends_with _ x); try destruct (ends_with _ y);
    intros s t H; cbn; agree_open; exact H.
Qed.

(** Actions that change nothing of this: writing references. *)
Definition silent (a : act) : Prop := forall s, exists s', a s = Ok s' /\ agree s' s.
Lemma agree_refl : forall s, agree s s.
Proof. intro s. repeat split. Qed.
Lemma agree_sym : forall s t, agree s t -> agree t s.
Proof. intros s t (?&?&?&?&?&?&?&?). repeat split; congruence. Qed.
Lemma agree_trans : forall s t u, agree s t -> agree t u -> agree s u.
Proof. intros s t u (?&?&?&?&?&?&?&?) (?&?&?&?&?&?&?&?). repeat split; congruence. Qed.
Lemma rel_silent : forall a b, silent a -> silent b -> rel a b.
Proof.
  intros a b A B s t H. destruct (A s) as (s' & -> & X). destruct (B t) as (t' & -> & Y). cbn [both].
  eapply agree_trans; [exact X|]. eapply agree_trans; [exact H|]. apply agree_sym. exact Y.
Qed.
Lemma silent_nop : silent nop.
Proof. intro s. exists s. split; [reflexivity|apply agree_refl]. Qed.
Lemma silent_seq : forall a b, silent a -> silent b -> silent (a ;; b).
Proof.
  intros a b A B s. destruct (A s) as (s' & E & X). destruct (B s') as (s2 & F & Y). exists s2. unfold seqa. rewrite E. cbn [rbind].
  split; [exact F|]. eapply agree_trans; eassumption.
Qed.
Lemma silent_all : forall l, Forall silent l -> silent (all l).
Proof. intros l H. induction H; cbn [all fold_right]; [apply silent_nop|apply silent_seq; assumption]. Qed.
Lemma silent_get : forall A (f : st -> A) k, (forall x, silent (k x)) -> silent (get f k).
Proof. intros A f k K s. apply K. Qed.
Lemma silent_emit : forall x, silent (emit x).
Proof. intros x s. eexists. split; [reflexivity|]. repeat split. Qed.
Lemma silent_ensure : silent ensure_blank_line.
Proof.
  apply silent_get. intro x. destruct (ends_with _ x); [apply silent_nop|]. destruct (ends_with _ x); apply silent_emit.
Qed.
Lemma silent_write_reference : forall r, silent (write_reference r).
Proof.
  intro r. unfold write_reference. apply silent_seq; [|apply silent_seq; [apply silent_emit|]].
  - intro s. eexists. split; [reflexivity|]. agree_open. repeat split. rewrite codes_app. apply app_nil_r.
  - intro s. eexists. split; [reflexivity|]. repeat split.
Qed.
Lemma silent_flush_references : silent flush_references.
Proof.
  unfold flush_references. apply silent_get. intro p. destruct (is_nil p); [apply silent_nop|]. apply silent_get. intro em.
  apply silent_seq; [intro s; eexists; split; [reflexivity|repeat split]|]. destruct (is_nil _); [apply silent_nop|].
  apply silent_seq; [apply silent_ensure|]. apply silent_all. apply Forall_map. apply Forall_forall. intros r _. apply silent_write_reference.
Qed.
Lemma silent_flush_note_refs : forall l, silent (flush_footnote_references_before l).
Proof.
  intros l s. unfold flush_footnote_references_before, get. destruct (is_nil _); [apply silent_nop|].
  set (live := filter _ _). clearbody live.
  match goal with |- exists s', (?a ;; ?b) s = _ /\ _ => assert (B : silent b) end.
  { destruct (is_nil _); [apply silent_nop|]. apply silent_seq; [apply silent_ensure|]. apply silent_all. apply Forall_map. apply Forall_forall.
    intros r _. apply silent_write_reference. }
  unfold seqa, upd. cbn [rbind].
  match goal with |- exists s', _ ?m = _ /\ _ => destruct (B m) as (s' & E & X) end.
  exists s'. split; [exact E|]. eapply agree_trans; [exact X|]. agree_open. repeat split.
Qed.

(** Writing footnotes depends on their content only in the text. *)
Section Flush.
Variable U : Uni.
Variable o : Options.
Variable q : punct.
Variable checks : bool.
Local Notation p := (with_punct o q).

Lemma footnote_text_panics : forall f g, erase f = erase g -> both (fun _ _ => True) (footnote_text U o checks f) (footnote_text U p checks g).
Proof.
  intros f g E. injection E as N _ B. unfold footnote_text. rewrite <- N, <- B. destruct (fn_has_blocks f); [exact I|].
  change (line_width p) with (line_width o).
  destruct (sub_usize checks (line_width o) (u_width U (lit "[^" ++ fn_name f ++ lit "]: "))); [|exact I]. cbn [rbind].
  destruct (sub_usize _ _ _); [|exact I]. cbn [rbind]. do 2 destruct (is_nil _); exact I.
Qed.
Lemma rel_write_footnote : forall f g, erase f = erase g -> rel (write_footnote U o checks f) (write_footnote U p checks g).
Proof.
  intros f g E. pose proof (footnote_text_panics f g E) as H. unfold write_footnote.
  destruct (footnote_text U o checks f), (footnote_text U p checks g); try contradiction; [|apply rel_panic].
  apply rel_seq; [apply rel_log_note|]. apply rel_seq; [apply rel_emit|].
  intros s t A. unfold upd. cbn [both]. agree_open. destruct A as (?&?&?&?&?&W&?&?). injection E as -> _ _. rewrite W.
  repeat (split; [first [assumption|reflexivity]|]). assumption.
Qed.
Lemma rel_write_footnotes : forall l m, map erase l = map erase m ->
  rel (all (map (write_footnote U o checks) l)) (all (map (write_footnote U p checks) m)).
Proof.
  induction l as [|f l IH]; intros [|g m] E; try discriminate; [apply rel_nop|]. cbn [map] in E. pose proof (f_equal (@tl _) E) as E2. cbn [tl] in E2.
  assert (E1 : erase f = erase g) by (unfold erase in *; congruence). cbn [map all fold_right]. apply rel_seq; [apply rel_write_footnote; exact E1|].
  apply IH. exact E2.
Qed.

Lemma filter_map_comm : forall A B (f : A -> B) (P : A -> bool) (Q : B -> bool) l, (forall x, P x = Q (f x)) ->
  map f (filter P l) = filter Q (map f l).
Proof. intros A B f P Q l H. induction l as [|x l IH]; [reflexivity|]. cbn [filter map]. rewrite <- H. destruct (P x); cbn [map]; rewrite IH; reflexivity. Qed.
Definition note_num (x : footnote) : option N := extract_numeric_footnote_name (fn_name x).
Lemma numeric_erase : forall l, map (fun x => (fst x, erase (snd x))) (numeric_of note_num l) = numeric_of note_num (map erase l).
Proof.
  induction l as [|f l IH]; [reflexivity|]. unfold numeric_of in *. cbn [flat_map map]. rewrite map_app, IH. f_equal.
  unfold note_num. cbn [erase fn_name]. destruct (extract_numeric_footnote_name (fn_name f)); reflexivity.
Qed.
Lemma sort_erase : forall l : list (N * footnote), map (fun x => (fst x, erase (snd x))) (sort_by_key l)
  = sort_by_key (map (fun x => (fst x, erase (snd x))) l).
Proof.
  induction l as [|x l IH]; [reflexivity|]. cbn [sort_by_key fold_right map]. fold (sort_by_key l).
  change (fold_right insert_by_key [] (map (fun x => (fst x, erase (snd x))) l)) with (sort_by_key (map (fun x => (fst x, erase (snd x))) l)).
  rewrite <- IH. generalize (sort_by_key l) as m. induction m as [|y m IHm]; [reflexivity|]. cbn [insert_by_key map fst].
  destruct (fst x <=? fst y)%N; cbn [map]; [reflexivity|]. rewrite IHm. reflexivity.
Qed.
Lemma flush_order_erase : forall l, map erase (flush_order note_num l) = flush_order note_num (map erase l).
Proof.
  intro l. unfold flush_order. rewrite <- numeric_erase, map_length. destruct (_ <? 2); [reflexivity|]. rewrite map_app. f_equal.
  - unfold regular_of. apply filter_map_comm. reflexivity.
  - rewrite <- sort_erase, !map_map. reflexivity.
Qed.
Lemma reinsert_erase : forall l m, map erase_kv (fold_left (fun m kv => imap_insert (fst kv) (snd kv) m) l m)
  = fold_left (fun m kv => imap_insert (fst kv) (snd kv) m) (map erase_kv l) (map erase_kv m).
Proof. induction l as [|kv l IH]; intro m; [reflexivity|]. cbn [fold_left map]. rewrite IH, map_imap. reflexivity. Qed.

Lemma rel_flush_notes : forall l, rel (flush_footnotes_before U o checks l) (flush_footnotes_before U p checks l).
Proof.
  intros l s t A. unfold flush_footnotes_before, get.
  assert (P : map erase_kv (f_pending (footnotes s)) = map erase_kv (f_pending (footnotes t))) by apply A.
  assert (E : f_emitted (footnotes s) = f_emitted (footnotes t)) by apply A.
  assert (N : is_nil (f_pending (footnotes s)) = is_nil (f_pending (footnotes t)))
    by (destruct (f_pending (footnotes s)), (f_pending (footnotes t)); try discriminate; reflexivity).
  rewrite <- N. destruct (is_nil _); [exact A|]. clear N. rewrite <- E.
  set (g := fun kv : str * footnote => negb (mem (fst kv) (f_emitted (footnotes s)))).
  assert (L : map erase_kv (filter g (f_pending (footnotes s))) = map erase_kv (filter g (f_pending (footnotes t))))
    by (rewrite !(filter_map_comm _ _ erase_kv g g) by reflexivity; rewrite P; reflexivity).
  set (l1 := filter g (f_pending (footnotes s))) in *. set (l2 := filter g (f_pending (footnotes t))) in *. clearbody l1 l2.
  set (d := fun kv : str * footnote => due l (fn_reference_line (snd kv))).
  assert (D : map erase (map snd (filter d l1)) = map erase (map snd (filter d l2))).
  { rewrite !map_map. rewrite <- !(map_map erase_kv snd). rewrite !(filter_map_comm _ _ erase_kv d d) by reflexivity. rewrite L. reflexivity. }
  assert (K : map erase_kv (filter (fun kv => negb (d kv)) l1) = map erase_kv (filter (fun kv => negb (d kv)) l2)).
  { rewrite !(filter_map_comm _ _ erase_kv (fun kv => negb (d kv)) (fun kv => negb (d kv))) by reflexivity. rewrite L. reflexivity. }
  set (e1 := map snd (filter d l1)) in *. set (e2 := map snd (filter d l2)) in *.
  change (fun kv : str * footnote => negb (due l (fn_reference_line (snd kv)))) with (fun kv => negb (d kv)).
  set (k1 := filter (fun kv => negb (d kv)) l1) in *. set (k2 := filter (fun kv => negb (d kv)) l2) in *. clearbody e1 e2 k1 k2.
  assert (N : is_nil e1 = is_nil e2) by (destruct e1, e2; try discriminate; reflexivity).
  rewrite <- N. unfold seqa at 1 3. unfold upd. cbn [rbind].
  assert (R : rel (if is_nil e1 then nop else ensure_blank_line ;; all (map (write_footnote U o checks) (flush_order note_num e1)))
                  (if is_nil e1 then nop else ensure_blank_line ;; all (map (write_footnote U p checks) (flush_order note_num e2)))).
  { destruct (is_nil e1); [apply rel_nop|]. apply rel_seq; [apply rel_ensure|]. apply rel_write_footnotes. rewrite !flush_order_erase, D. reflexivity. }
  apply R. destruct A as (?&?&?&?&?&?&?&?). agree_open. do 5 (split; [assumption|]). split; [reflexivity|]. split; [|assumption].
  unfold reinsert. rewrite !reinsert_erase, K. reflexivity.
Qed.
Lemma rel_flush_all : forall l, rel (flush_all U o checks l) (flush_all U p checks l).
Proof.
  intro l. unfold flush_all. apply rel_seq; [apply rel_flush_notes|]. apply rel_seq.
  - apply rel_silent; apply silent_flush_references.
  - apply rel_silent; apply silent_flush_note_refs.
Qed.
End Flush.

(** What two collectors did. *)
Fixpoint span_codes (l : list inline_event) : list str :=
  match l with
  | [] => []
  | EvCode x :: r => x :: span_codes r
  | _ :: r => span_codes r
  end.
Lemma span_codes_app : forall a b, span_codes (a ++ b) = span_codes a ++ span_codes b.
Proof. induction a as [|[] a IH]; intro b; cbn [span_codes app]; rewrite ?IH; reflexivity. Qed.
Definition wrel (v w : W) : Prop := both (fun x y => span_codes (snd x) = span_codes (snd y)) v w.
Lemma wrel_ret : forall x y, wrel (wret x) (wret y).
Proof. reflexivity. Qed.
Lemma wrel_use : forall x l u t x' l' u' t', wrel (wuse x l u t) (wuse x' l' u' t').
Proof. reflexivity. Qed.
Lemma wrel_refl : forall w, wrel w w.
Proof. intros [x|]; [reflexivity|exact I]. Qed.
Lemma wrel_app : forall a b a' b', wrel a a' -> wrel b b' -> wrel (wapp a b) (wapp a' b').
Proof.
  intros [x|] [y|] [x'|] [y'|] A B; cbn in *; try contradiction; try exact I. rewrite !span_codes_app, A, B. reflexivity.
Qed.
Lemma wrel_bind : forall a f a' f', wrel a a' -> (forall x y, wrel (f x) (f' y)) -> wrel (wbind a f) (wbind a' f').
Proof.
  intros [[x e]|] f [[x' e']|] f' A F; cbn in *; try contradiction; try exact I. specialize (F x x').
  destruct (f x), (f' x'); cbn in *; try contradiction; try exact I. rewrite !span_codes_app, A, F. reflexivity.
Qed.
Lemma wrel_rbind : forall A (r : res A) f f', (forall x, wrel (f x) (f' x)) -> wrel (rbind r f) (rbind r f').
Proof. intros A [x|] f f' H; [apply H|exact I]. Qed.
Lemma wrel_cat : forall l m, Forall2 wrel l m -> wrel (wcat l) (wcat m).
Proof. intros l m H. induction H; [apply wrel_ret|]. apply wrel_app; assumption. Qed.
Lemma forall2_map : forall A B (P : B -> B -> Prop) (f g : A -> B) l, Forall (fun x => P (f x) (g x)) l -> Forall2 P (map f l) (map g l).
Proof. intros A B P f g l H. induction H; constructor; assumption. Qed.
Lemma forall2_next : forall A (P : A -> A -> Prop) (f g : option node -> node -> A) cs, Forall (fun c => forall nx, P (f nx c) (g nx c)) cs ->
  Forall2 P (with_next f cs) (with_next g cs).
Proof. intros A P f g cs H. induction H; cbn [with_next]; constructor; auto. Qed.

Section Same.
Variable U : Uni.
Variable PN : list (str * str).
Variable ENT : str -> option str.
Variable o : Options.
Variable q : punct.
Variable B : backend.
Variable src : list str.
Variable ends_nl : bool.
Variable checks : bool.
Local Notation p := (with_punct o q).

Lemma wrel_text : forall pos t, wrel (inline_text U ENT o src pos t) (inline_text U ENT p src pos t).
Proof. intros pos t. unfold inline_text. cbv zeta. apply wrel_rbind. intros [x|]; apply wrel_ret. Qed.
Lemma wrel_collect_text : forall n, wrel (collect_text U ENT o src n) (collect_text U ENT p src n).
Proof.
  induction n as [v pos cs IH] using node_ind'.
  assert (K : wrel (wcat (map (collect_text U ENT o src) cs)) (wcat (map (collect_text U ENT p src) cs))) by (apply wrel_cat; apply forall2_map; exact IH).
  cbn [collect_text]. destruct v; try exact K; try apply wrel_refl; try apply wrel_text.
  - apply wrel_rbind. intro d. repeat apply wrel_app; try apply wrel_ret. exact K.
  - apply wrel_rbind. intro d. repeat apply wrel_app; try apply wrel_ret. exact K.
Qed.
Lemma wrel_collect_inline : forall n next, wrel (collect_inline U ENT o src next n) (collect_inline U ENT p src next n).
Proof.
  induction n as [v pos cs IH] using node_ind'. intro next.
  assert (K : wrel (wcat (with_next (collect_inline U ENT o src) cs)) (wcat (with_next (collect_inline U ENT p src) cs))).
  { apply wrel_cat. apply forall2_next. exact IH. }
  cbn [collect_inline]. cbv zeta. destruct v; try exact K; try apply wrel_refl; try apply wrel_text.
  - apply wrel_rbind. intro d. repeat apply wrel_app; try apply wrel_ret. exact K.
  - apply wrel_rbind. intro d. repeat apply wrel_app; try apply wrel_ret. exact K.
  - apply wrel_rbind. intros [[t l]|].
    + destruct (existsb is_image cs); [|apply wrel_refl]. repeat apply wrel_app; [apply wrel_ret|exact K|apply wrel_refl].
    + destruct (existsb is_image cs); [repeat apply wrel_app; [apply wrel_ret|exact K|apply wrel_refl]|].
      destruct (_ && _); [apply wrel_refl|]. destruct (is_external_url url); (apply wrel_bind; [exact K|]); intros x y; reflexivity.
  - apply wrel_rbind. intros [[t l]|]; [apply wrel_refl|]. apply wrel_bind; [exact K|]. intros x y. reflexivity.
Qed.
Lemma wrel_collect_all : forall cs, wrel (wcat (with_next (collect_inline U ENT o src) cs)) (wcat (with_next (collect_inline U ENT p src) cs)).
Proof. intro cs. apply wrel_cat. apply forall2_next. apply Forall_forall. intros c _ nx. apply wrel_collect_inline. Qed.
Lemma wrel_content : forall n, wrel (inline_content U ENT o src n) (inline_content U ENT p src n).
Proof. intro n. apply wrel_collect_all. Qed.

(** Recording what was collected. *)
Lemma events_trace : forall evs s, exists s', all (map do_event evs) s = Ok s' /\ codes (trace s') = codes (trace s) ++ span_codes evs
  /\ cx s' = cx s /\ skip s' = skip s /\ warnings s' = warnings s /\ calls s' = calls s
  /\ f_reference_lines (footnotes s') = f_reference_lines (footnotes s) /\ f_emitted (footnotes s') = f_emitted (footnotes s)
  /\ f_pending (footnotes s') = f_pending (footnotes s).
Proof.
  induction evs as [|e evs IH]; intro s; [exists s; cbn; rewrite app_nil_r; repeat split|].
  assert (X : exists m, do_event e s = Ok m /\ codes (trace m) = codes (trace s) ++ span_codes [e]
    /\ cx m = cx s /\ skip m = skip s /\ warnings m = warnings s /\ calls m = calls s
    /\ f_reference_lines (footnotes m) = f_reference_lines (footnotes s) /\ f_emitted (footnotes m) = f_emitted (footnotes s)
    /\ f_pending (footnotes m) = f_pending (footnotes s)).
  { destruct e as [r|x]; cbn [do_event]; eexists; (split; [reflexivity|]).
    - cbv zeta. destruct (f_collecting (footnotes s)); agree_open; rewrite codes_app; cbn; repeat split.
    - agree_open. rewrite codes_app. repeat split. }
  destruct X as (m & E & C & ?&?&?&?&?&?&?). destruct (IH m) as (s' & E' & C' & ?&?&?&?&?&?&?). exists s'. cbn [map all fold_right].
  unfold seqa at 1. rewrite E. cbn [rbind]. split; [exact E'|]. split; [|repeat split; congruence].
  rewrite C', C, <- app_assoc. change (e :: evs) with ([e] ++ evs). rewrite span_codes_app. reflexivity.
Qed.
Lemma rel_events : forall e e', span_codes e = span_codes e' -> rel (all (map do_event e)) (all (map do_event e')).
Proof.
  intros e e' H s t A. destruct (events_trace e s) as (s' & -> & C & ?&?&?&?&?&?&?). destruct (events_trace e' t) as (t' & -> & C' & ?&?&?&?&?&?&?).
  cbn [both]. destruct A as (?&?&?&?&?&?&?&?). repeat split; congruence.
Qed.
Lemma rel_inline : forall w w' k k', wrel w w' -> (forall x y, rel (k x) (k' y)) -> rel (inline w k) (inline w' k').
Proof.
  intros [[x e]|] [[x' e']|] k k' Wr K; cbn in Wr; try contradiction; cbn [inline]; [|apply rel_panic].
  apply rel_seq; [apply rel_events; exact Wr|apply K].
Qed.
Lemma rel_code : forall f, rel (code_act f) (code_act f).
Proof.
  intro f. unfold code_act. apply rel_get_eq.
  - intros s t H. f_equal. apply H.
  - intro n. destruct (f n) as [text eff]. apply rel_seq; [apply rel_call|]. apply rel_seq; [apply rel_log_code|apply rel_emit].
Qed.

(** Children. *)
Definition krel (k k' : kids) : Prop := Forall2 (fun x y => fst x = fst y /\ rel (snd x) (snd y)) k k'.
Lemma krel_fst : forall k k', krel k k' -> map fst k = map fst k'.
Proof. intros k k' H. induction H as [|x y k k' [E _] H IH]; [reflexivity|]. cbn [map]. congruence. Qed.
Lemma krel_last : forall k k', krel k k' -> last_child k = last_child k'.
Proof.
  intros k k' H. induction H as [|[n a] [m b] k k' [E _] H IH]; [reflexivity|]. cbn [fst] in E. subst m. cbn [last_child].
  inversion H; subst; [reflexivity|]. destruct x, y. exact IH.
Qed.
Lemma rel_children : forall k k', krel k k' -> rel (children_acts k) (children_acts k').
Proof.
  intros k k' H. apply rel_all. induction H as [|x y k k' [_ R] H IH]; cbn [map]; constructor; assumption.
Qed.

Ltac rs :=
  lazymatch goal with
  | |- rel nop nop => apply rel_nop
  | |- rel panic panic => apply rel_panic
  | |- rel (emit _) (emit _) => apply rel_emit
  | |- rel (log (Code ?x)) (log (Code ?x)) => apply rel_log_code
  | |- rel (updc _) (updc _) => apply rel_updc
  | |- rel (upd (set_skip _)) (upd (set_skip _)) => apply rel_set_skip
  | |- rel (flush_all _ _ _ _) (flush_all _ _ _ _) => apply rel_flush_all
  | |- rel (code_act _) (code_act _) => apply rel_code
  | |- rel (record_reference_line _ _) _ => apply rel_record
  | |- rel ensure_blank_line ensure_blank_line => apply rel_ensure
  | |- rel (get cx _) (get cx _) => apply rel_cx; intro
  | |- rel (get skip _) (get skip _) => apply rel_skip; intro
  | |- rel (_ ;; _) (_ ;; _) => apply rel_seq
  | |- rel (match ?x with _ => _ end) (match ?x with _ => _ end) => destruct x
  | H : rel ?a ?b |- rel ?a ?b => exact H
  end.
Ltac rt := repeat rs.

Lemma rel_blockquote_children : forall k k' i pr f, krel k k' -> rel (blockquote_children i pr f k) (blockquote_children i pr f k').
Proof.
  intros k k' i pr f H. revert f. induction H as [|[n a] [m b] k k' [E R] H IH]; intro f; cbn [blockquote_children fst snd] in *; rt. apply IH.
Qed.
Lemma rel_block_quote : forall k k', krel k k' -> rel (block_quote k) (block_quote k').
Proof. intros k k' H. unfold block_quote. rt. apply rel_blockquote_children. exact H. Qed.
Lemma rel_alert : forall a pos k k', krel k k' -> rel (alert a pos k) (alert a pos k').
Proof.
  intros a pos k k' H. unfold alert. apply rel_cx. intro c. apply rel_seq; [apply rel_emit|]. apply rel_seq; [|apply rel_block_quote; exact H].
  inversion H as [|[n x] [m y] ? ? [E R] ?]; subst; [rt|]. cbn [fst] in E. subst m. rt.
Qed.
Lemma rel_list : forall kind tight k k', krel k k' -> rel (list_block kind tight k) (list_block kind tight k').
Proof.
  intros kind tight k k' H. unfold list_block. rewrite (krel_fst _ _ H). rt; [apply rel_children; exact H|].
  apply rel_get_eq; [intros s t A; f_equal; apply A|]. intro d. rt.
Qed.
Lemma rel_item_children : forall base k k' prev, krel k k' -> rel (item_children o B base prev k) (item_children p B base prev k').
Proof.
  intros base k k' prev H. revert prev. induction H as [|[n a] [m b] k k' [E R] H IH]; intro prev; [apply rel_nop|]. cbn [fst snd] in *. subst m.
  cbn [item_children]. apply rel_seq; [|apply IH]. cbv zeta. rt. 
Qed.
Lemma rel_item : forall task k k', krel k k' -> rel (list_item o B task k) (list_item p B task k').
Proof.
  intros task k k' H. unfold list_item. rewrite (krel_last _ _ H).
  apply rel_seq; [apply rel_updc|]. apply rel_cx. intro c. apply rel_seq; [apply rel_emit|].
  change (item_base_indent p c) with (item_base_indent o c). rt. apply rel_item_children. exact H.
Qed.
Lemma rel_paragraph : forall n, rel (paragraph U ENT o src n) (paragraph U ENT p src n).
Proof.
  intro n. unfold paragraph. cbv zeta. destruct (extract_source src (node_pos n)) as [source|]; [|rt].
  match goal with |- rel (match ?x with Some _ => _ | None => _ end) _ => destruct x end; [rt|].
  apply rel_inline; [apply wrel_content|]. intros x y. rt.
Qed.
Lemma rel_heading : forall n level, rel (heading U PN ENT o src n level) (heading U PN ENT p src n level).
Proof. intros n level. apply rel_inline; [apply wrel_collect_text|]. intros x y. apply rel_silent; apply silent_get; intro; apply silent_emit. Qed.
Lemma rel_details_paragraph : forall quote marker child, rel (details_paragraph U ENT o src quote marker child) (details_paragraph U ENT p src quote marker child).
Proof. intros. unfold details_paragraph. rt. apply rel_inline; [apply wrel_content|]. intros. rt. Qed.
Lemma rel_with_item_indent : forall indent a b, rel a b -> rel (with_item_indent indent a) (with_item_indent indent b).
Proof. intros. unfold with_item_indent. apply rel_get_eq; [intros s t A; f_equal; apply A|]. intro. rt. Qed.
Lemma rel_details_children : forall quote k k' first, krel k k' ->
  rel (details_children U ENT o B src quote first k) (details_children U ENT p B src quote first k').
Proof.
  intros quote k k' first H. revert first. induction H as [|[n a] [m b] k k' [E R] H IH]; intro first; [apply rel_nop|]. cbn [fst snd] in *. subst m.
  cbn [details_children]. apply rel_seq; [|apply IH].
  rt; first [apply rel_with_item_indent; exact R | apply rel_details_paragraph].
Qed.
Lemma rel_details : forall k k', krel k k' -> rel (description_details U ENT o B src k) (description_details U ENT p B src k').
Proof. intros k k' H. unfold description_details. rt. apply rel_details_children; exact H. Qed.
Lemma rel_description_list : forall k k' first, krel k k' -> rel (description_list first k) (description_list first k').
Proof.
  intros k k' first H. revert first. induction H as [|[n a] [m b] k k' [E R] H IH]; intro first; [apply rel_nop|]. cbn [fst snd] in *.
  cbn [description_list]. rt; apply IH.
Qed.
Lemma rcollect_both : forall l m, Forall2 wrel l m -> both (fun x y => span_codes (snd x) = span_codes (snd y)) (rcollect l) (rcollect m).
Proof.
  intros l m H. induction H as [|x y l m E H IH]; [reflexivity|]. cbn [rcollect]. unfold wrel in E.
  destruct x, y; cbn in E; try contradiction; [|exact I]. cbn [rbind]. destruct (rcollect l), (rcollect m); cbn in *; try contradiction; [|exact I].
  rewrite !span_codes_app. congruence.
Qed.
Lemma table_rows_both : forall rows, both (fun x y => span_codes (snd x) = span_codes (snd y)) (table_rows U ENT o src rows) (table_rows U ENT p src rows).
Proof.
  induction rows as [|r rows IH]; [reflexivity|]. cbn [table_rows].
  assert (X := rcollect_both (map (inline_content U ENT o src) (node_children r)) (map (inline_content U ENT p src) (node_children r))).
  specialize (X ltac:(apply forall2_map; apply Forall_forall; intros c _; apply wrel_content)).
  destruct (rcollect _), (rcollect _); cbn in X; try contradiction; [|exact I]. cbn [rbind].
  destruct (table_rows U ENT o src rows), (table_rows U ENT p src rows); cbn in *; try contradiction; [|exact I].
  rewrite !span_codes_app. congruence.
Qed.
Lemma rel_table : forall pos aligns rows, rel (table U ENT o src pos aligns rows) (table U ENT p src pos aligns rows).
Proof.
  intros pos aligns rows. unfold table. destruct (is_nil rows); [rt|]. apply rel_seq; [apply rel_warn|].
  pose proof (table_rows_both rows) as X. destruct (table_rows U ENT o src rows) as [[x e]|], (table_rows U ENT p src rows) as [[y e']|];
    cbn in X; try contradiction; [|rt]. apply rel_seq; [apply rel_events; exact X|]. rt.
Qed.
Lemma rel_link : forall next n url title k k', krel k k' -> rel (link U ENT o src next n url title k) (link U ENT p src next n url title k').
Proof.
  intros next n url title k k' H. unfold link. cbv zeta. rewrite (krel_fst _ _ H). pose proof (rel_children _ _ H) as C.
  rt; first [apply rel_use | apply rel_inline; [|intros; rt]].
  - apply wrel_refl.
  - apply wrel_bind; [apply wrel_collect_text|]. reflexivity.
  - apply wrel_bind; [apply wrel_collect_text|]. reflexivity.
Qed.
Lemma wrel_unwritten : forall v w, wrel v w -> wrel (unwritten v) (unwritten w).
Proof.
  assert (X : forall l, span_codes (filter (fun e => match e with EvCode _ => false | EvUse _ => true end) l) = [])
    by (induction l as [|[] l IH]; [reflexivity|exact IH|exact IH]).
  intros [v|] [w|] H; cbn in *; try contradiction; [rewrite !X; reflexivity|exact I].
Qed.
Lemma rel_image : forall n url title, rel (image U ENT o src n url title) (image U ENT p src n url title).
Proof.
  intros n url title. apply rel_inline; [|intros; rt]. apply wrel_rbind. intros [[t l]|].
  - apply wrel_bind; [apply wrel_unwritten; apply wrel_collect_text|]. intros x y. apply wrel_refl.
  - apply wrel_bind; [apply wrel_collect_text|]. reflexivity.
Qed.
Lemma rel_single : forall a b k k', rel a b -> (forall x y, rel (k x) (k' y)) -> rel (single_block a k) (single_block b k').
Proof.
  intros a b k k' R K. unfold single_block. apply rel_get_any. intros x y. apply rel_seq; [apply rel_set_output|]. apply rel_seq; [exact R|].
  apply rel_get_any. intros x' y'. apply rel_seq; [apply rel_set_output|apply K].
Qed.
Lemma rel_footnote_blocks : forall k k' r r' first f f', krel k k' -> (forall x y, rel (f x) (f' y)) ->
  rel (footnote_blocks r first k f) (footnote_blocks r' first k' f').
Proof.
  intros k k' r r' first f f' H F. revert r r' first. induction H as [|[n a] [m b] k k' [E R] H IH]; intros r r' first; cbn [footnote_blocks]; [apply F|].
  apply rel_single; [exact R|]. intros x y. apply IH.
Qed.
Lemma rel_footnote_definition : forall name cs k k', krel k k' ->
  rel (footnote_definition U ENT o src name cs k) (footnote_definition U ENT p src name cs k').
Proof.
  intros name cs k k' H. unfold footnote_definition. apply rel_get_eq.
  - intros s t A. replace (f_reference_lines (footnotes t)) with (f_reference_lines (footnotes s)) by apply A. reflexivity.
  - intro line. cbv zeta. apply rel_seq; [apply rel_set_collecting|].
    assert (F : forall x y, rel (set_collecting false 0 ;; add_footnote (mkFootnote name x line (footnote_has_blocks cs)))
                                (set_collecting false 0 ;; add_footnote (mkFootnote name y line (footnote_has_blocks cs)))).
    { intros x y. apply rel_seq; [apply rel_set_collecting|apply rel_add_note; reflexivity]. }
    destruct (footnote_has_blocks cs); [apply rel_footnote_blocks; [exact H|exact F]|].
    apply rel_inline; [apply wrel_collect_all|]. intros x y. apply F.
Qed.
Lemma rel_output_trailing : forall cs first, rel (output_trailing first cs) (output_trailing first cs).
Proof. induction cs as [|c cs IH]; intro first; cbn [output_trailing]; [rt|]. destruct (node_value c); rt; apply IH. Qed.
Lemma rel_document_block : forall prev child a b, rel a b ->
  rel (document_block U o src checks prev child a) (document_block U p src checks prev child b).
Proof. intros prev child a b R. unfold document_block. cbv zeta. rt. Qed.
Lemma rel_directive : forall prev child literal d, rel (directive_act U o checks prev child literal d) (directive_act U p checks prev child literal d).
Proof. intros prev child literal d. unfold directive_act. cbv zeta. destruct d; rt; apply rel_set_nouns. Qed.
Lemma rel_disable_file : forall child literal, rel (disable_file U o src ends_nl checks child literal) (disable_file U p src ends_nl checks child literal).
Proof. intros. unfold disable_file. rt. Qed.
Lemma rel_document_loop : forall k k' ts prev f f', krel k k' -> rel f f' ->
  rel (document_loop U o src ends_nl checks ts prev k f) (document_loop U p src ends_nl checks ts prev k' f').
Proof.
  intros k k' ts prev f f' H F. revert ts prev. induction H as [|[n a] [m b] k k' [E R] H IH]; intros ts prev; cbn [document_loop]; [exact F|].
  cbn [fst snd] in *. subst m. cbv zeta. pose proof (IH (ts - 1) (Some n)) as C.
  destruct ((ts =? 0) && is_html_block n); [exact C|]. destruct (is_footnote_def n); [exact C|].
  assert (D : rel (document_block U o src checks prev n a ;; document_loop U o src ends_nl checks (ts - 1) (Some n) k f)
                  (document_block U p src checks prev n b ;; document_loop U p src ends_nl checks (ts - 1) (Some n) k' f'))
    by (apply rel_seq; [apply rel_document_block; exact R|exact C]).
  destruct (node_value n); try exact D. destruct (directive_of n) as [d|]; [|exact D].
  destruct d; try (apply rel_seq; [apply rel_directive|exact C]). apply rel_disable_file.
Qed.
Lemma rel_collect_lines : forall n, rel (collect_reference_lines n) (collect_reference_lines n).
Proof.
  induction n as [v pos cs IH] using node_ind'. cbn [collect_reference_lines]. apply rel_seq; [destruct v; rt|].
  apply rel_all. apply forall2_map. exact IH.
Qed.
Lemma rel_document : forall n k k', krel k k' -> rel (document U o src ends_nl checks n k) (document U p src ends_nl checks n k').
Proof.
  intros n k k' H. unfold document. cbv zeta. rewrite (krel_fst _ _ H). destruct (check_undefined checks src n) as [ws|]; [|rt].
  apply rel_seq; [apply rel_warn|]. apply rel_seq; [apply rel_collect_lines|]. apply rel_seq.
  - apply rel_all. induction H as [|[m a] [m' b] k k' [E R] H IH]; cbn [map fst snd] in *; constructor; [|exact IH]. subst m'. rt.
  - apply rel_document_loop; [exact H|]. apply rel_seq; [apply rel_flush_all|apply rel_output_trailing].
Qed.

Lemma krel_next : forall (f g : option node -> node -> act) cs, Forall (fun c => forall nx, rel (f nx c) (g nx c)) cs ->
  krel (combine cs (with_next f cs)) (combine cs (with_next g cs)).
Proof. intros f g cs H. induction H; cbn [with_next combine]; constructor; cbn; auto. Qed.

Theorem rel_serialize : forall n next,
  rel (serialize U PN ENT o B src ends_nl checks next n) (serialize U PN ENT p B src ends_nl checks next n).
Proof.
  induction n as [v pos cs IH] using node_ind'. intro next.
  assert (K := krel_next _ _ cs IH). cbn [serialize]. cbv zeta.
  destruct v;
    first [ apply rel_document; exact K | apply rel_block_quote; exact K | apply rel_list; exact K
          | apply rel_item; exact K | apply rel_description_list; exact K | apply rel_details; exact K
          | apply rel_paragraph | apply rel_heading | apply rel_footnote_definition; exact K
          | apply rel_table | apply rel_link; exact K | apply rel_image | apply rel_alert; exact K | apply rel_children; exact K
          | idtac ]; unfold thematic_break; rt; apply rel_children; exact K.
Qed.
End Same.
