(** A run on a text and a run on the same text among other lines go side by side. *)
From Coq Require Import Bool Arith NArith Lia ZifyBool ZifyNat ZifyN String List.
From Verif Require Import Base BaseFacts OptsModel PunctModel WrapModel CodeModel TableModel HeadingModel AstModel StateModel
  InlineModel EscapeModel WarnModel SerModel SpecContext StateProof SpecShift.
Import ListNotations.

(** ** Trees *)
Section Tree.
Variable k : nat.
Lemma moved_value : forall n, node_value (moved k n) = node_value n.
Proof. intros []. reflexivity. Qed.
Lemma moved_at : forall n, node_pos (moved k n) = moved_pos k (node_pos n).
Proof. intros []. reflexivity. Qed.
Lemma moved_children : forall n, node_children (moved k n) = map (moved k) (node_children n).
Proof. intros []. reflexivity. Qed.
Lemma existsb_moved : forall (f : node -> bool) cs, (forall c, f (moved k c) = f c) -> existsb f (map (moved k) cs) = existsb f cs.
Proof. intros f cs H. induction cs as [|c cs IH]; [reflexivity|]. cbn [map existsb]. rewrite H, IH. reflexivity. Qed.
Lemma filter_moved : forall (f : node -> bool) cs, (forall c, f (moved k c) = f c) -> filter f (map (moved k) cs) = map (moved k) (filter f cs).
Proof. intros f cs H. induction cs as [|c cs IH]; [reflexivity|]. cbn [map filter]. rewrite H, IH. destruct (f c); reflexivity. Qed.
Lemma find_moved : forall (f : node -> bool) cs, (forall c, f (moved k c) = f c) -> find f (map (moved k) cs) = option_map (moved k) (find f cs).
Proof. intros f cs H. induction cs as [|c cs IH]; [reflexivity|]. cbn [map find]. rewrite H, IH. destruct (f c); reflexivity. Qed.
Lemma moved_is_image : forall n, is_image (moved k n) = is_image n. Proof. intros []. reflexivity. Qed.
Lemma moved_is_html : forall n, is_html_block (moved k n) = is_html_block n. Proof. intros []. reflexivity. Qed.
Lemma moved_is_note : forall n, is_footnote_def (moved k n) = is_footnote_def n. Proof. intros []. reflexivity. Qed.
Lemma moved_directive : forall n, directive_of (moved k n) = directive_of n. Proof. intros []. reflexivity. Qed.
Lemma moved_section : forall n, is_section_heading (moved k n) = is_section_heading n. Proof. intros []. reflexivity. Qed.
Lemma moved_enable : forall n, is_enable (moved k n) = is_enable n. Proof. intros []. reflexivity. Qed.
Lemma moved_level : forall n, heading_level (moved k n) = heading_level n. Proof. intros []. reflexivity. Qed.
Lemma moved_ends : forall n, ends_with_newline_kind (moved k n) = ends_with_newline_kind n. Proof. intros []. reflexivity. Qed.
Lemma moved_separator : forall prev n, block_separator (option_map (moved k) prev) (moved k n) = block_separator prev n.
Proof. intros [[]|] []; reflexivity. Qed.
Lemma moved_bracket : forall nx, next_starts_with_bracket (option_map (moved k) nx) = next_starts_with_bracket nx.
Proof. intros [[]|]; reflexivity. Qed.
Lemma moved_raw : forall n, raw_text (moved k n) = raw_text n.
Proof.
  induction n as [v p cs IH] using node_ind'. cbn [moved raw_text].
  assert (E : flat_map raw_text (map (moved k) cs) = flat_map raw_text cs).
  { induction IH as [|c cs H _ IH]; [reflexivity|]. cbn [map flat_map]. rewrite H, IH. reflexivity. }
  rewrite E. reflexivity.
Qed.
Lemma moved_contains : forall ch n, text_contains ch (moved k n) = text_contains ch n.
Proof.
  intro ch. induction n as [v p cs IH] using node_ind'. cbn [moved text_contains].
  assert (E : existsb (text_contains ch) (map (moved k) cs) = existsb (text_contains ch) cs).
  { induction IH as [|c cs H _ IH]; [reflexivity|]. cbn [map existsb]. rewrite H, IH. reflexivity. }
  rewrite E. reflexivity.
Qed.
Lemma moved_items : forall cs, count_list_items (map (moved k) cs) = count_list_items cs.
Proof. intro cs. unfold count_list_items. rewrite filter_moved by (intros []; reflexivity). apply map_length. Qed.
Lemma moved_blocks : forall cs, footnote_has_blocks (map (moved k) cs) = footnote_has_blocks cs.
Proof.
  intro cs. unfold footnote_has_blocks. rewrite existsb_moved by (intros []; reflexivity). rewrite filter_moved by (intros []; reflexivity).
  rewrite map_length. reflexivity.
Qed.
Lemma moved_trailing_html : forall cs seen start, trailing_html (map (moved k) cs) seen start = trailing_html cs seen start.
Proof.
  induction cs as [|c cs IH]; intros seen start; [reflexivity|]. cbn [map trailing_html]. rewrite moved_value.
  destruct (node_value c); try reflexivity; [|apply IH]. destruct (parse_directive _); [reflexivity|apply IH].
Qed.
Lemma moved_trailing : forall cs, find_trailing_html_blocks (map (moved k) cs) = find_trailing_html_blocks cs.
Proof. intro cs. unfold find_trailing_html_blocks. rewrite map_length, <- map_rev, moved_trailing_html. reflexivity. Qed.
Lemma next_moved : forall A (f g : option node -> node -> A) cs, Forall (fun c => forall nx, f (option_map (moved k) nx) (moved k c) = g nx c) cs ->
  with_next f (map (moved k) cs) = with_next g cs.
Proof.
  intros A f g cs H. induction H as [|c cs E H IH]; [reflexivity|]. cbn [map with_next]. rewrite IH, <- E. destruct cs; reflexivity.
Qed.
End Tree.

Section Shift.
Variable U : Uni.
Variable PN : list (str * str).
Variable ENT : str -> option str.
Variable o : Options.
Variable B : backend.
Variable pre src post : list str.
Variable ends_nl ends' : bool.
Variable checks : bool.
Local Notation big := (pre ++ src ++ post).
Local Notation k := (List.length pre).
Local Notation ok := (placed (List.length src)).
Local Notation mv := (moved (List.length pre)).
Definition fine (p : sourcepos) : Prop := 1 <= start_line p <= List.length src /\ 1 <= end_line p <= List.length src.
Lemma ok_inv : forall v p cs, ok (Node v p cs) -> fine p /\ Forall ok cs.
Proof. intros v p cs H. inversion H; subst. split; [split; assumption|assumption]. Qed.
Lemma ok_pos : forall n, ok n -> fine (node_pos n).
Proof. intros [v p cs] H. apply ok_inv in H. apply H. Qed.
Lemma ok_children : forall n, ok n -> Forall ok (node_children n).
Proof. intros [v p cs] H. apply ok_inv in H. apply H. Qed.

(** ** The source *)
Lemma nth_big : forall i d, i < List.length src -> nth (k + i) big d = nth i src d.
Proof. intros i d H. rewrite app_nth2_plus. apply app_nth1. exact H. Qed.
Lemma nth_error_big : forall i, i < List.length src -> nth_error big (k + i) = nth_error src i.
Proof. intros i H. rewrite nth_error_app2 by lia. replace (k + i - k) with i by lia. apply nth_error_app1. exact H. Qed.
Lemma seq_moved : forall n a, seq (k + a) n = map (fun i => k + i) (seq a n).
Proof. induction n as [|n IH]; intro a; [reflexivity|]. cbn [seq map]. rewrite <- IH. f_equal. f_equal. lia. Qed.
Lemma eqb_moved : forall a b, (k + a =? k + b) = (a =? b).
Proof. intros. lia. Qed.
Lemma extract_line_moved : forall p a b i, i < List.length src ->
  extract_line big (moved_pos k p) (k + a) (k + b) (k + i) = extract_line src p a b i.
Proof. intros p a b i H. unfold extract_line. rewrite nth_big by exact H. rewrite !eqb_moved. reflexivity. Qed.
Lemma extract_loop_moved : forall p a b is, Forall (fun i => i < List.length src) is ->
  extract_loop big (moved_pos k p) (k + a) (k + b) (map (fun i => k + i) is) = extract_loop src p a b is.
Proof.
  intros p a b is H. induction H as [|i is Hi H IH]; [reflexivity|]. cbn [map extract_loop]. rewrite extract_line_moved by exact Hi. rewrite IH.
  replace (k + a <? k + i) with (a <? i) by lia. reflexivity.
Qed.
Lemma src_some : forall p, fine p -> is_nil src = false /\ is_nil big = false.
Proof. intros p [H _]. destruct src as [|x r]; [cbn in H; lia|]. split; [reflexivity|]. destruct pre; reflexivity. Qed.
Lemma extract_moved : forall p, fine p -> extract_source big (moved_pos k p) = extract_source src p.
Proof.
  intros p F. unfold extract_source. destruct (src_some p F) as [-> ->]. destruct F as [[F1 F2] [F3 F4]]. cbn [moved_pos start_line end_line].
  replace (k + start_line p =? 0) with (start_line p =? 0) by lia. replace (k + end_line p =? 0) with (end_line p =? 0) by lia.
  destruct ((start_line p =? 0) || (end_line p =? 0)); [reflexivity|]. cbv zeta. rewrite !app_length.
  replace (k + (List.length src + List.length post) <=? k + end_line p - 1) with false by lia.
  replace (List.length src <=? end_line p - 1) with false by lia.
  replace (k + start_line p - 1) with (k + (start_line p - 1)) by lia. replace (k + end_line p - 1) with (k + (end_line p - 1)) by lia.
  replace (Datatypes.S (k + (end_line p - 1)) - (k + (start_line p - 1))) with (Datatypes.S (end_line p - 1) - (start_line p - 1)) by lia.
  rewrite seq_moved, extract_loop_moved; [reflexivity|]. apply Forall_forall. intros i Hi. apply in_seq in Hi. lia.
Qed.
Lemma emphasis_moved : forall n, fine (node_pos n) -> emphasis_delimiter big (mv n) = emphasis_delimiter src n.
Proof. intros n F. unfold emphasis_delimiter. rewrite moved_contains, moved_at, extract_moved by exact F. reflexivity. Qed.
Lemma strong_moved : forall n, fine (node_pos n) -> strong_delimiter big (mv n) = strong_delimiter src n.
Proof. intros n F. unfold strong_delimiter. rewrite moved_contains, moved_at, extract_moved by exact F. reflexivity. Qed.
Lemma style_moved : forall p, fine p -> reference_style_of big (moved_pos k p) = reference_style_of src p.
Proof. intros p F. unfold reference_style_of. rewrite extract_moved by exact F. reflexivity. Qed.

(** ** Collectors *)
Lemma collect_text_moved : forall n, ok n -> collect_text U ENT o big (mv n) = collect_text U ENT o src n.
Proof.
  induction n as [v p cs IH] using node_ind'. intro H. pose proof (ok_inv _ _ _ H) as [F C].
  assert (E : map (collect_text U ENT o big) (map mv cs) = map (collect_text U ENT o src) cs).
  { clear H. rewrite map_map. apply map_ext_in. intros c Ic. rewrite Forall_forall in *. apply IH; [exact Ic|apply C; exact Ic]. }
  pose proof (moved_raw k (Node v p cs)) as R. pose proof (emphasis_moved (Node v p cs) F) as D1. pose proof (strong_moved (Node v p cs) F) as D2.
  cbn [moved] in *. destruct v; cbn [collect_text];
    rewrite ?E, ?R, ?D1, ?D2, ?style_moved by exact F; unfold inline_text, inline_code; rewrite ?extract_moved by exact F; reflexivity.
Qed.
Lemma collect_inline_moved : forall n nx, ok n -> collect_inline U ENT o big (option_map mv nx) (mv n) = collect_inline U ENT o src nx n.
Proof.
  induction n as [v p cs IH] using node_ind'. intros nx H. pose proof (ok_inv _ _ _ H) as [F C].
  assert (E : with_next (collect_inline U ENT o big) (map mv cs) = with_next (collect_inline U ENT o src) cs).
  { apply next_moved. clear H. rewrite Forall_forall in *. intros c Ic nx'. apply IH; [exact Ic|apply C; exact Ic]. }
  pose proof (moved_raw k (Node v p cs)) as R. pose proof (emphasis_moved (Node v p cs) F) as D1. pose proof (strong_moved (Node v p cs) F) as D2.
  cbn [moved] in *. destruct v; cbn [collect_inline]; cbv zeta;
    rewrite ?E, ?R, ?D1, ?D2, ?style_moved, ?moved_bracket by exact F; unfold inline_text, inline_code; rewrite ?extract_moved by exact F;
    try reflexivity; rewrite existsb_moved by apply moved_is_image; reflexivity.
Qed.
Lemma next_inline_moved : forall cs, Forall ok cs -> with_next (collect_inline U ENT o big) (map mv cs) = with_next (collect_inline U ENT o src) cs.
Proof. intros cs C. apply next_moved. eapply Forall_impl; [|exact C]. intros c Oc nx. apply collect_inline_moved. exact Oc. Qed.
Lemma content_moved : forall n, ok n -> inline_content U ENT o big (mv n) = inline_content U ENT o src n.
Proof. intros n H. unfold inline_content. rewrite moved_children, next_inline_moved by (apply ok_children; exact H). reflexivity. Qed.
Lemma rows_moved : forall rows, Forall ok rows -> table_rows U ENT o big (map mv rows) = table_rows U ENT o src rows.
Proof.
  intros rows H. induction H as [|r rows Hr H IH]; [reflexivity|]. cbn [map table_rows]. rewrite IH, moved_children, map_map.
  rewrite (map_ext_in _ (inline_content U ENT o src)); [reflexivity|]. intros c Ic. apply content_moved.
  pose proof (ok_children _ Hr) as C. rewrite Forall_forall in C. apply C. exact Ic.
Qed.

(** ** States *)
Local Notation ml := (moved_line (List.length pre)).
Definition mnote (f : footnote) : footnote := mkFootnote (fn_name f) (fn_content f) (ml (fn_reference_line f)) (fn_has_blocks f).
Definition mevent (e : event) : event := match e with Footnote f => Footnote (mnote f) | _ => e end.
Definition mref (kv : str * (reference * nat)) : str * (reference * nat) := (fst kv, (fst (snd kv), ml (snd (snd kv)))).
Definition mline (kv : str * nat) : str * nat := (fst kv, ml (snd kv)).
Definition mpend (kv : str * footnote) : str * footnote := (fst kv, mnote (snd kv)).
Definition mfoot (f : footnote_set) : footnote_set :=
  mkFootnotes (map mpend (f_pending f)) (f_emitted f) (map mline (f_reference_lines f)) (f_collecting f) (ml (f_current_line f))
    (map mref (f_pending_references f)).
Definition shifted (s : st) (ws : list warning) : st :=
  mkSt (output s) (cx s) (pending_references s) (emitted_references s) (mfoot (footnotes s)) (skip s) ws
    (proper_nouns s) (common_nouns s) (calls s) (map mevent (trace s)).
Definition agree (a b : list warning) : Prop := same_names src big -> Forall2 (moved_warning k) a b.
Definition meet (r r' : res st) : Prop :=
  match r, r' with
  | Ok s, Ok t => exists ws, t = shifted s ws /\ agree (warnings s) ws
  | Panic, Panic => True
  | _, _ => False
  end.
Definition par (a b : act) : Prop := forall s ws, agree (warnings s) ws -> meet (a s) (b (shifted s ws)).
Lemma agree_app : forall a b x y, agree a b -> agree x y -> agree (a ++ x) (b ++ y).
Proof. intros a b x y H K Q. apply Forall2_app; auto. Qed.

Lemma par_nop : par nop nop.
Proof. intros s ws A. exists ws. auto. Qed.
Lemma par_panic : par panic panic.
Proof. intros s ws A. exact Logic.I. Qed.
Lemma par_seq : forall a b x y, par a b -> par x y -> par (a ;; x) (b ;; y).
Proof.
  intros a b x y H K s ws A. unfold seqa. specialize (H s ws A). destruct (a s) as [s'|], (b (shifted s ws)) as [t'|]; cbn [rbind meet] in *; try contradiction; [|exact Logic.I].
  destruct H as (ws' & -> & A'). apply K. exact A'.
Qed.
Lemma par_all : forall l m, Forall2 par l m -> par (all l) (all m).
Proof. intros l m H. induction H; cbn [all fold_right]; [apply par_nop|]. apply par_seq; assumption. Qed.
Lemma par_get : forall A (f : st -> A) (g : A -> A) h h', (forall s ws, f (shifted s ws) = g (f s)) -> (forall x, par (h x) (h' (g x))) -> par (get f h) (get f h').
Proof. intros A f g h h' F H s ws Ag. unfold get. rewrite F. apply H. exact Ag. Qed.
Lemma par_cx : forall h h', (forall c, par (h c) (h' c)) -> par (get cx h) (get cx h').
Proof. intros h h' H. apply (par_get _ _ (fun x => x)); [reflexivity|exact H]. Qed.
Lemma par_upd : forall f g, (forall s ws, agree (warnings s) ws -> exists ws', g (shifted s ws) = shifted (f s) ws' /\ agree (warnings (f s)) ws') -> par (upd f) (upd g).
Proof. intros f g H s ws A. cbn. apply H. exact A. Qed.
Lemma par_upd0 : forall f g, (forall s ws, g (shifted s ws) = shifted (f s) ws) -> (forall s, warnings (f s) = warnings s) -> par (upd f) (upd g).
Proof. intros f g H W. apply par_upd. intros s ws A. exists ws. rewrite H, W. auto. Qed.
Lemma par_emit : forall x, par (emit x) (emit x).
Proof. intro x. apply par_upd0; reflexivity. Qed.
Lemma par_updc : forall f, par (updc f) (updc f).
Proof. intro f. apply par_upd0; reflexivity. Qed.
Lemma par_log : forall e, par (log e) (log (mevent e)).
Proof. intro e. apply par_upd0; [|reflexivity]. intros s ws. unfold shifted, set_trace. cbn. rewrite map_app. reflexivity. Qed.
Lemma par_log_code : forall x, par (log (Code x)) (log (Code x)).
Proof. intro x. apply (par_log (Code x)). Qed.
Lemma par_set_skip : forall m, par (upd (set_skip m)) (upd (set_skip m)).
Proof. intro m. apply par_upd0; reflexivity. Qed.
Lemma par_set_output : forall x, par (upd (set_output x)) (upd (set_output x)).
Proof. intro m. apply par_upd0; reflexivity. Qed.
Lemma par_warn : forall a b, agree a b -> par (upd (fun s => set_warnings (warnings s ++ a) s)) (upd (fun s => set_warnings (warnings s ++ b) s)).
Proof. intros a b H. apply par_upd. intros s ws A. exists (ws ++ b). split; [reflexivity|]. cbn. apply agree_app; assumption. Qed.
Lemma insert_map : forall A (g : str * A -> str * A) (h : A -> A) key v m, (forall kv, g kv = (fst kv, h (snd kv))) ->
  imap_insert key (h v) (map g m) = map g (imap_insert key v m).
Proof.
  intros A g h key v m G. induction m as [|[k0 v0] m IH]; cbn [map imap_insert]; [rewrite G; reflexivity|]. rewrite (G (k0, v0)). cbn [fst snd].
  destruct (seqb key k0); cbn [map]; rewrite G; cbn [fst snd]; [reflexivity|]. rewrite IH. reflexivity.
Qed.
Lemma par_use : forall r, par (add_reference r) (add_reference r).
Proof.
  intro r. apply par_upd0.
  - intros s ws. cbn. destruct (f_collecting (footnotes s)); unfold shifted, set_footnotes, set_pending, set_trace, mfoot; cbn; rewrite ?map_app; [|reflexivity].
    f_equal. f_equal. apply (insert_map _ mref (fun v => (fst v, ml (snd v))) (ref_label r) (r, f_current_line (footnotes s))). reflexivity.
  - intro s. cbn. destruct (f_collecting (footnotes s)); reflexivity.
Qed.
Lemma par_events : forall evs, par (all (map do_event evs)) (all (map do_event evs)).
Proof.
  intro evs. apply par_all. induction evs as [|e evs IH]; cbn [map]; constructor; [|exact IH]. destruct e as [r|x]; cbn [do_event]; [apply par_use|apply par_log_code].
Qed.
Lemma par_inline : forall v h h', (forall x, par (h x) (h' x)) -> par (inline v h) (inline v h').
Proof. intros [[x e]|] h h' H; cbn [inline]; [|apply par_panic]. apply par_seq; [apply par_events|apply H]. Qed.

(** Formatters report warnings without a line. *)
Definition lineless (f : nat -> str * effects) : Prop := forall n, Forall (fun w => warn_line w = 0) (eff_warnings (snd (f n))).
Lemma lineless_agree : forall ws, Forall (fun w => warn_line w = 0) ws -> Forall2 (moved_warning k) ws ws.
Proof. intros ws H. induction H as [|w ws E H IH]; constructor; [|exact IH]. split; [rewrite E; reflexivity|left; reflexivity]. Qed.
Lemma par_code : forall f, lineless f -> par (code_act f) (code_act f).
Proof.
  intros f L. unfold code_act. apply (par_get _ _ (fun x => x)); [reflexivity|]. intro n. specialize (L n). destruct (f n) as [text eff]. cbn [snd] in L.
  apply par_seq; [|apply par_seq; [apply par_log_code|apply par_emit]].
  apply par_upd. intros s ws A. exists (ws ++ eff_warnings eff). split; [reflexivity|]. cbn. apply agree_app; [exact A|]. intro Q. apply lineless_agree. exact L.
Qed.

Lemma parts_lineless : forall n info literal, Forall (fun w => warn_line w = 0) (eff_warnings (snd (code_parts o B n info literal))).
Proof.
  intros n info literal. unfold code_parts. destruct (parse_code_info info) as [[a b] c]. cbv zeta. destruct (_ && _); [|constructor].
  unfold try_format_code. destruct B as [run|[cb|]]; [|constructor|constructor]. destruct (assoc_str _ _); [|constructor].
  destruct (run _ _ _ _); repeat constructor.
Qed.
Lemma lineless_block : forall q info literal, lineless (fun n => code_block o B q n info literal).
Proof. intros q info literal n. pose proof (parts_lineless n info literal) as H. unfold code_block. destruct (code_parts o B n info literal) as [[a b] e]. exact H. Qed.
Lemma lineless_indented : forall q info literal i, lineless (fun n => code_block_indented o B q n info literal i).
Proof. intros q info literal i n. pose proof (parts_lineless n info literal) as H. unfold code_block_indented. destruct (code_parts o B n info literal) as [[a b] e]. exact H. Qed.
Lemma lineless_with : forall info literal i, lineless (fun n => code_block_with_indent o B n info literal i).
Proof. intros info literal i n. pose proof (parts_lineless n info literal) as H. unfold code_block_with_indent. destruct (code_parts o B n info literal) as [[a b] e]. exact H. Qed.

(** ** Footnotes and references *)
Lemma par_ensure : par ensure_blank_line ensure_blank_line.
Proof.
  apply (par_get _ _ (fun x => x)); [reflexivity|]. intro out. destruct (ends_with _ out); [apply par_nop|]. destruct (ends_with _ out); apply par_emit.
Qed.
Lemma par_write_reference : forall r, par (write_reference r) (write_reference r).
Proof. intro r. apply par_seq; [apply (par_log (Def r))|]. apply par_seq; [apply par_emit|]. apply par_upd0; reflexivity. Qed.
Lemma par_write_references : forall l, par (all (map write_reference l)) (all (map write_reference l)).
Proof. intro l. apply par_all. induction l; cbn [map]; constructor; [apply par_write_reference|assumption]. Qed.
Lemma par_flush_references : par flush_references flush_references.
Proof.
  apply (par_get _ _ (fun x => x)); [reflexivity|]. intro pd. destruct (is_nil pd); [apply par_nop|].
  apply (par_get _ _ (fun x => x)); [reflexivity|]. intro em. cbv zeta. apply par_seq; [apply par_upd0; reflexivity|].
  destruct (is_nil _); [apply par_nop|]. apply par_seq; [apply par_ensure|apply par_write_references].
Qed.
Lemma par_write_footnote : forall f, par (write_footnote U o checks f) (write_footnote U o checks (mnote f)).
Proof.
  intro f. unfold write_footnote. change (footnote_text U o checks (mnote f)) with (footnote_text U o checks f).
  destruct (footnote_text U o checks f) as [t|]; [|apply par_panic]. apply par_seq; [apply (par_log (Footnote f))|]. apply par_seq; [apply par_emit|].
  apply par_upd0; reflexivity.
Qed.
Lemma due_moved : forall before l, due (option_map (fun x => k + x) before) (ml l) = due before l.
Proof. intros [b|] l; [|reflexivity]. cbn [option_map due]. unfold moved_line. destruct l; cbn [Nat.eqb]; lia. Qed.
Lemma filter_map : forall A (g : A -> A) (f h : A -> bool) l, (forall x, f (g x) = h x) -> filter f (map g l) = map g (filter h l).
Proof. intros A g f h l H. induction l as [|x l IH]; [reflexivity|]. cbn [map filter]. rewrite H, IH. destruct (h x); reflexivity. Qed.
Lemma reinsert_map : forall A (g : str * A -> str * A) (h : A -> A) l, (forall kv, g kv = (fst kv, h (snd kv))) -> reinsert (map g l) = map g (reinsert l).
Proof.
  intros A g h l G. unfold reinsert. change (@nil (str * A)) with (map g []) at 1. generalize (@nil (str * A)).
  induction l as [|kv l IH]; intro m; [reflexivity|]. cbn [map fold_left]. rewrite <- IH. f_equal. rewrite G at 1 2. cbn [fst snd]. apply insert_map. exact G.
Qed.
Section Order.
Variable A : Type.
Variable num : A -> option N.
Variable g : A -> A.
Hypothesis G : forall x, num (g x) = num x.
Local Notation gg := (fun nx : N * A => (fst nx, g (snd nx))).
Lemma numeric_map : forall l, numeric_of num (map g l) = map gg (numeric_of num l).
Proof. induction l as [|x l IH]; [reflexivity|]. cbn [map]. unfold numeric_of in *. cbn [flat_map]. rewrite G, IH, map_app. destruct (num x); reflexivity. Qed.
Lemma insert_key_map : forall x l, insert_by_key (gg x) (map gg l) = map gg (insert_by_key x l).
Proof.
  intros x l. induction l as [|y l IH]; [reflexivity|]. cbn [map insert_by_key fst]. destruct (fst x <=? fst y)%N; [reflexivity|]. cbn [map]. rewrite <- IH. reflexivity.
Qed.
Lemma sort_map : forall l, sort_by_key (map gg l) = map gg (sort_by_key l).
Proof. induction l as [|x l IH]; [reflexivity|]. cbn [map]. unfold sort_by_key in *. cbn [fold_right]. rewrite IH. apply insert_key_map. Qed.
Lemma order_map : forall l, flush_order num (map g l) = map g (flush_order num l).
Proof.
  intro l. unfold flush_order. rewrite numeric_map, map_length. destruct (_ <? 2); [reflexivity|]. rewrite sort_map, map_app, !map_map. f_equal.
  unfold regular_of. apply filter_map. intro x. rewrite G. reflexivity.
Qed.
End Order.
Lemma forall2_two : forall A (P : act -> act -> Prop) (f g : A -> act) l, (forall x, P (f x) (g x)) -> Forall2 P (map f l) (map g l).
Proof. intros A P f g l H. induction l; cbn [map]; constructor; auto. Qed.
Lemma nil_map : forall A C (f : A -> C) l, is_nil (map f l) = is_nil l.
Proof. intros A C f []; reflexivity. Qed.
Lemma par_flush_footnotes : forall b, par (flush_footnotes_before U o checks b) (flush_footnotes_before U o checks (option_map (fun x => k + x) b)).
Proof.
  intro b. unfold flush_footnotes_before. apply (par_get _ _ mfoot); [reflexivity|]. intro f. cbn [mfoot f_pending f_emitted]. rewrite (nil_map _ _ mpend).
  destruct (is_nil (f_pending f)); [apply par_nop|]. cbv zeta.
  rewrite (filter_map _ mpend _ (fun kv => negb (mem (fst kv) (f_emitted f)))) by reflexivity.
  set (live := filter _ (f_pending f)).
  rewrite (filter_map _ mpend _ (fun kv => negb (due b (fn_reference_line (snd kv))))) by (intro x; cbn; rewrite due_moved; reflexivity).
  rewrite (filter_map _ mpend _ (fun kv => due b (fn_reference_line (snd kv)))) by (intro x; cbn; apply due_moved).
  rewrite map_map. change (map (fun x => snd (mpend x))) with (map (fun x : str * footnote => mnote (snd x))). rewrite <- (map_map snd mnote).
  rewrite (reinsert_map _ mpend mnote) by reflexivity. rewrite (nil_map _ _ mnote).
  apply par_seq; [apply par_upd0; reflexivity|]. destruct (is_nil _); [apply par_nop|]. apply par_seq; [apply par_ensure|].
  rewrite order_map by reflexivity. rewrite map_map. apply par_all. apply forall2_two. intro x. apply par_write_footnote.
Qed.
Lemma par_flush_note_references : forall b, par (flush_footnote_references_before b) (flush_footnote_references_before (option_map (fun x => k + x) b)).
Proof.
  intro b. unfold flush_footnote_references_before. apply (par_get _ _ mfoot); [reflexivity|]. intro f. cbn [mfoot f_pending_references]. rewrite (nil_map _ _ mref).
  destruct (is_nil (f_pending_references f)); [apply par_nop|]. apply (par_get _ _ (fun x => x)); [reflexivity|]. intro em. cbv zeta.
  rewrite (filter_map _ mref _ (fun kv => negb (mem (fst kv) em))) by reflexivity.
  set (live := filter _ (f_pending_references f)).
  rewrite (filter_map _ mref _ (fun kv => negb (due b (snd (snd kv))))) by (intro x; cbn; rewrite due_moved; reflexivity).
  rewrite (filter_map _ mref _ (fun kv => due b (snd (snd kv)))) by (intro x; cbn; apply due_moved).
  rewrite (map_map mref). change (map (fun x => fst (snd (mref x)))) with (map (fun x : str * (reference * nat) => fst (snd x))).
  rewrite (reinsert_map _ mref (fun v => (fst v, ml (snd v)))) by reflexivity.
  apply par_seq; [apply par_upd0; reflexivity|]. destruct (is_nil _); [apply par_nop|]. apply par_seq; [apply par_ensure|apply par_write_references].
Qed.
Lemma par_flush_all : forall b, par (flush_all U o checks b) (flush_all U o checks (option_map (fun x => k + x) b)).
Proof. intro b. apply par_seq; [apply par_flush_footnotes|]. apply par_seq; [apply par_flush_references|apply par_flush_note_references]. Qed.
Lemma assoc_line : forall name m, assoc_str name (map mline m) = option_map ml (assoc_str name m).
Proof. intros name m. induction m as [|[a b] m IH]; [reflexivity|]. cbn [map assoc_str mline fst snd]. destruct (seqb _ _); [reflexivity|exact IH]. Qed.
Lemma par_record : forall name l, 1 <= l -> par (record_reference_line name l) (record_reference_line name (k + l)).
Proof.
  intros name l L. apply par_upd0.
  - intros s ws. cbn. rewrite assoc_line. destruct (assoc_str name (f_reference_lines (footnotes s))); cbn [option_map]; [reflexivity|].
    unfold shifted, set_footnotes, mfoot. cbn. rewrite map_app. cbn [map]. replace (mline (name, l)) with (name, k + l); [reflexivity|]. unfold mline, moved_line. cbn [fst snd]. replace (l =? 0) with false by lia. reflexivity.
  - intro s. cbn. destruct (assoc_str _ _); reflexivity.
Qed.
Lemma par_collect_lines : forall n, ok n -> par (collect_reference_lines n) (collect_reference_lines (mv n)).
Proof.
  induction n as [v p cs IH] using node_ind'. intro H. apply ok_inv in H. destruct H as [[[F _] _] C]. cbn [moved collect_reference_lines]. apply par_seq.
  - destruct v; try apply par_nop. apply par_record. exact F.
  - rewrite map_map. apply par_all. induction C as [|c cs Hc C IHc]; cbn [map]; constructor.
    + apply Forall_inv in IH. apply IH. exact Hc.
    + apply IHc. apply Forall_inv_tail in IH. exact IH.
Qed.
Lemma par_set_collecting : forall b l, par (set_collecting b l) (set_collecting b (ml l)).
Proof. intros b l. apply par_upd0; reflexivity. Qed.
Lemma par_add_note : forall f, par (add_footnote f) (add_footnote (mnote f)).
Proof.
  intro f. apply par_upd0; [|reflexivity]. intros s ws. cbn. unfold shifted, set_footnotes, mfoot. cbn.
  rewrite <- (insert_map _ mpend mnote) by reflexivity. reflexivity.
Qed.

(** ** Warnings *)
Definition mrange (r : range) : range := (k + fst r, option_map (fun x => k + x) (snd r)).
Lemma end_before_moved : forall f rest, (forall c, f (mv c) = f c) -> Forall ok rest ->
  exists e, end_before checks f rest = Ok e /\ end_before checks f (map mv rest) = Ok (option_map (fun x => k + x) e).
Proof.
  intros f rest E H. unfold end_before. rewrite find_moved by exact E. destruct (find f rest) as [n|] eqn:Q; cbn [option_map]; [|exists None; auto].
  apply find_some in Q. destruct Q as [Q _]. rewrite Forall_forall in H. pose proof (ok_pos _ (H n Q)) as [[L _] _]. rewrite moved_at. cbn [moved_pos start_line].
  destruct (start_line (node_pos n)) as [|l]; [lia|]. exists (Some l). split; [reflexivity|]. replace (k + Datatypes.S l) with (Datatypes.S (k + l)) by lia. reflexivity.
Qed.
Lemma directive_ranges_moved : forall c rest, Forall ok rest ->
  exists r, directive_ranges checks c rest = Ok r /\ directive_ranges checks (mv c) (map mv rest) = Ok (map mrange r).
Proof.
  intros c rest H. unfold directive_ranges. rewrite moved_directive, moved_at. cbn [moved_pos end_line]. cbv zeta. rewrite <- Nat.add_assoc.
  destruct (directive_of c) as [[]|]; try (exists []; split; reflexivity).
  all: first
    [ eexists; split; reflexivity
    | destruct (end_before_moved is_section_heading rest (moved_section k) H) as (e & E1 & E2); rewrite E1, E2; eexists; split; reflexivity
    | destruct (end_before_moved is_enable rest (moved_enable k) H) as (e & E1 & E2); rewrite E1, E2; eexists; split; reflexivity
    | destruct rest as [|n rest]; [exists []; split; reflexivity|]; cbn [map]; rewrite moved_directive, moved_at;
      destruct (directive_of n); [exists []; split; reflexivity|]; eexists; split; reflexivity ].
Qed.
Lemma ranges_moved : forall cs, Forall ok cs -> exists r, disabled_ranges checks cs = Ok r /\ disabled_ranges checks (map mv cs) = Ok (map mrange r).
Proof.
  intros cs H. induction H as [|c cs Hc H (r & E1 & E2)]; [exists []; split; reflexivity|]. cbn [map disabled_ranges].
  destruct (directive_ranges_moved c cs H) as (a & -> & ->). rewrite E1, E2. cbn [rbind]. exists (a ++ r). rewrite map_app. split; reflexivity.
Qed.
Lemma in_ranges_moved : forall l rs, in_ranges (k + l) (map mrange rs) = in_ranges l rs.
Proof.
  intros l rs. unfold in_ranges. induction rs as [|[a e] rs IH]; [reflexivity|]. cbn [map existsb fst snd mrange]. rewrite IH. f_equal.
  f_equal; [lia|]. destruct e; cbn [option_map]; [lia|reflexivity].
Qed.
Lemma escaped_moved : forall l pat, 1 <= l <= List.length src -> is_escaped_in_source big (k + l) pat = is_escaped_in_source src l pat.
Proof.
  intros l pat L. unfold is_escaped_in_source. rewrite !app_length.
  replace ((k + l =? 0) || (k + (List.length src + List.length post) <? k + l)) with false by lia.
  replace ((l =? 0) || (List.length src <? l)) with false by lia.
  replace (k + l - 1) with (k + (l - 1)) by lia. rewrite nth_big by lia. reflexivity.
Qed.
Lemma existsb_same : forall l a b, (forall x, In x a <-> In x b) -> existsb (seqb l) a = existsb (seqb l) b.
Proof.
  intros l a b H. destruct (existsb (seqb l) b) eqn:E; [rewrite existsb_exists in *|].
  - destruct E as (x & I1 & I2). exists x. split; [apply H; exact I1|exact I2].
  - destruct (existsb (seqb l) a) eqn:E'; [|reflexivity]. rewrite <- E. symmetry. apply existsb_exists. apply existsb_exists in E'.
    destruct E' as (x & I1 & I2). exists x. split; [apply H; exact I1|exact I2].
Qed.
Definition lined (w : warning) : Prop := warn_line w <> 0.
Definition both (w w' : warning) : Prop := lined w /\ moved_warning k w w'.
Lemma match_moved : forall a a' d d' l m, (forall x, In x a' <-> In x a) -> (forall x, In x d' <-> In x d) -> 1 <= l <= List.length src ->
  Forall2 both (match_warning src a d l m) (match_warning big a' d' (k + l) m).
Proof.
  intros a a' d d' l m Ha Hd L. unfold match_warning. cbv zeta. rewrite escaped_moved by exact L. rewrite (existsb_same _ a' a Ha), (existsb_same _ d' d Hd).
  repeat match goal with |- Forall2 _ (if ?c then _ else _) _ => destruct c; [constructor|] end.
  constructor; [|constructor]. split; [unfold lined; cbn [warn_line]; lia|]. split; cbn [warn_line warn_message]; [|left; reflexivity].
  unfold moved_line. replace (l =? 0) with false by lia. reflexivity.
Qed.
Lemma forall2_flat : forall A A' C (P : C -> C -> Prop) (f : A -> list C) (g : A' -> list C) l l', Forall2 (fun x y => Forall2 P (f x) (g y)) l l' ->
  Forall2 P (flat_map f l) (flat_map g l').
Proof. intros A A' C P f g l l' H. induction H; cbn [flat_map]; [constructor|]. apply Forall2_app; assumption. Qed.
Lemma refs_moved : forall a a' d d' n, (forall x, In x a' <-> In x a) -> (forall x, In x d' <-> In x d) -> ok n ->
  Forall2 both (undefined_refs src a d n) (undefined_refs big a' d' (mv n)).
Proof.
  intros a a' d d' n Ha Hd. induction n as [v p cs IH] using node_ind'. intro H. apply ok_inv in H. destruct H as [[F _] C].
  assert (E : Forall2 both (flat_map (undefined_refs src a d) cs) (flat_map (undefined_refs big a' d') (map mv cs))).
  { apply forall2_flat. induction C as [|c cs Hc C IHc]; cbn [map]; constructor.
    - apply Forall_inv in IH. apply IH. exact Hc.
    - apply IHc. apply Forall_inv_tail in IH. exact IH. }
  cbn [moved undefined_refs]. destruct v; try exact E; try constructor. apply Forall2_app; [|exact E].
  apply forall2_flat. induction (ref_matches 0 text) as [|m ms IHm]; constructor; [|exact IHm]. apply match_moved; assumption.
Qed.
Lemma forall2_filter : forall A (P Q : A -> A -> Prop) f g l l', Forall2 P l l' -> (forall x y, P x y -> f x = g y /\ Q x y) -> Forall2 Q (filter f l) (filter g l').
Proof.
  intros A P Q f g l l' H K. induction H as [|x y l l' Hx H IH]; [constructor|]. cbn [filter]. destruct (K x y Hx) as [E Hq]. rewrite E. destruct (g y); [constructor|]; assumption.
Qed.
Lemma undefined_moved : forall p p' cs, Forall ok cs ->
  exists ws ws', check_undefined checks src (Node NDocument p cs) = Ok ws /\ check_undefined checks big (Node NDocument p' (map mv cs)) = Ok ws' /\ agree ws ws'.
Proof.
  intros p p' cs H. destruct cs as [|c0 cs0] eqn:Q.
  { exists [], []. unfold check_undefined. split; [destruct (is_nil src); reflexivity|]. split; [destruct (is_nil big); reflexivity|]. intros _. constructor. }
  assert (N : cs <> []) by (rewrite Q; discriminate). rewrite <- Q in *. clear Q c0 cs0. assert (S : is_nil src = false /\ is_nil big = false).
  { destruct cs as [|c cs]; [contradiction|]. apply Forall_inv in H. apply (src_some (node_pos c)). apply ok_pos. exact H. }
  unfold check_undefined. destruct S as [-> ->]. cbn [node_children]. destruct (ranges_moved cs H) as (r & -> & ->). cbn [rbind].
  do 2 eexists. split; [reflexivity|]. split; [reflexivity|]. intros [Na Nd]. eapply forall2_filter.
  - cbn [undefined_refs]. apply forall2_flat. instantiate (1 := both). clear N. induction H as [|c cs Hc H IH]; cbn [map]; constructor; [|exact IH].
    apply refs_moved; assumption.
  - intros w w' [L M]. split; [|exact M]. destruct M as [-> _]. unfold moved_line. unfold lined in L. replace (warn_line w =? 0) with false by lia.
    rewrite in_ranges_moved. reflexivity.
Qed.
Lemma table_columns_moved : forall a b n t, 1 <= a -> 1 <= b <= List.length src ->
  Forall2 (moved_warning k) (check_table_source_columns src a b n t) (check_table_source_columns big (k + a) (k + b) n (k + t)).
Proof.
  intros a b n t La Lb. unfold check_table_source_columns. replace ((a =? 0) || (b =? 0)) with false by lia. replace ((k + a =? 0) || (k + b =? 0)) with false by lia.
  replace (Datatypes.S (k + b) - (k + a)) with (Datatypes.S b - a) by lia. rewrite seq_moved.
  assert (G : Forall (fun i => 1 <= i <= List.length src) (seq a (Datatypes.S b - a))) by (apply Forall_forall; intros i Hi; apply in_seq in Hi; lia).
  apply forall2_flat. induction G as [|i is Hi G IH]; cbn [map]; constructor; [|exact IH].
  replace (k + i - 1) with (k + (i - 1)) by lia. rewrite nth_error_big by lia. destruct (nth_error src (i - 1)) as [line|]; [|constructor].
  unfold table_line_warning. destruct (forallb _ line); [constructor|]. cbv zeta.
  assert (ML : forall m, moved_line k (warn_line (mkWarning i m)) = k + i) by (intro m; unfold moved_line; cbn [warn_line]; replace (i =? 0) with false by lia; reflexivity).
  destruct (_ <? count_unescaped_pipes line); [|destruct (_ <? _)]; try constructor; try constructor.
  - symmetry. apply ML.
  - right. exists (lit "table row has " ++ dec (count_unescaped_pipes line) ++ lit " pipe characters, expected " ++ dec (n + 1) ++ lit " for " ++ dec n
      ++ lit " columns; unescaped `|` in cell content? "), t. cbn [warn_message]. rewrite <- !app_assoc. split; reflexivity.
  - symmetry. apply ML.
  - right. exists (lit "table row has " ++ dec (count_unescaped_pipes line) ++ lit " pipe characters, expected at least " ++ dec n ++ lit " for " ++ dec n
      ++ lit " columns "), t. cbn [warn_message]. rewrite <- !app_assoc. split; reflexivity.
Qed.

(** ** Blocks *)
Definition kpar (l l' : kids) : Prop := Forall2 (fun x y => fst y = mv (fst x) /\ ok (fst x) /\ par (snd x) (snd y)) l l'.
Lemma kpar_fst : forall l l', kpar l l' -> map fst l' = map mv (map fst l).
Proof. intros l l' H. induction H as [|x y l l' (E & _ & _) H IH]; [reflexivity|]. cbn [map]. congruence. Qed.
Lemma kpar_last : forall l l', kpar l l' -> last_child l' = option_map mv (last_child l).
Proof.
  intros l l' H. induction H as [|[n a] [m b] l l' (E & _ & _) H IH]; [reflexivity|]. cbn [fst] in E. subst m. cbn [last_child].
  inversion H; subst; [reflexivity|]. destruct x, y. exact IH.
Qed.
Lemma par_children : forall l l', kpar l l' -> par (children_acts l) (children_acts l').
Proof. intros l l' H. apply par_all. induction H as [|x y l l' (_ & _ & R) H IH]; cbn [map]; constructor; assumption. Qed.

Ltac rs :=
  lazymatch goal with
  | |- par nop nop => apply par_nop
  | |- par panic panic => apply par_panic
  | |- par (emit ?x) (emit ?x) => apply par_emit
  | |- par (log (Code _)) (log (Code _)) => apply par_log_code
  | |- par (upd (set_skip _)) (upd (set_skip _)) => apply par_set_skip
  | |- par (updc _) (updc _) => apply par_updc
  | |- par (code_act _) (code_act _) => apply par_code; first [apply lineless_block|apply lineless_indented|apply lineless_with]
  | |- par (add_reference _) _ => apply par_use
  | |- par ensure_blank_line ensure_blank_line => apply par_ensure
  | |- par (get cx _) (get cx _) => apply par_cx; intros ?
  | |- par (_ ;; _) (_ ;; _) => apply par_seq
  | |- par (match ?x with _ => _ end) (match ?x with _ => _ end) => destruct x
  | H : par ?a ?b |- par ?a ?b => exact H
  end.
Ltac rt := repeat rs.

Lemma par_blockquote_children : forall l l' i pr f, kpar l l' -> par (blockquote_children i pr f l) (blockquote_children i pr f l').
Proof.
  intros l l' i pr f H. revert f. induction H as [|[n a] [m b] l l' (E & _ & R) H IH]; intro f; cbn [blockquote_children fst snd] in *; rt; apply IH.
Qed.
Lemma par_block_quote : forall l l', kpar l l' -> par (block_quote l) (block_quote l').
Proof. intros l l' H. unfold block_quote. apply par_cx. intros c. rt. apply par_blockquote_children. exact H. Qed.
Lemma par_alert : forall a p l l', kpar l l' -> par (alert a p l) (alert a (moved_pos k p) l').
Proof.
  intros a p l l' H. unfold alert. apply par_cx. intros c. apply par_seq; [apply par_emit|]. apply par_seq; [|apply par_block_quote; exact H].
  inversion H as [|[n x] [m y] ? ? (E & _ & R) ?]; subst; [rt|]. cbn [fst] in E. subst m. rewrite moved_at. cbn [moved_pos start_line].
  replace (k + start_line p + 1 <? k + start_line (node_pos n)) with (start_line p + 1 <? start_line (node_pos n)) by lia. rt.
Qed.
Lemma par_list : forall kind tight l l', kpar l l' -> par (list_block kind tight l) (list_block kind tight l').
Proof.
  intros kind tight l l' H. unfold list_block. rewrite (kpar_fst _ _ H). apply par_cx. intros c. apply par_seq.
  - apply par_upd0; [|reflexivity]. intros s ws. unfold enter_list. rewrite moved_items. reflexivity.
  - apply par_seq; [apply par_children; exact H|]. apply par_seq; [|apply par_updc].
    apply (par_get _ _ (fun x => x)); [reflexivity|]. intro d. rt.
Qed.
Lemma par_item_children : forall base l l' prev, kpar l l' -> par (item_children o B base prev l) (item_children o B base (option_map mv prev) l').
Proof.
  intros base l l' prev H. revert prev. induction H as [|[n a] [m b] l l' (E & _ & R) H IH]; intro prev; [apply par_nop|]. cbn [fst snd] in *. subst m.
  cbn [item_children]. apply par_seq; [|apply (IH (Some n))]. cbv zeta. rewrite moved_value, moved_at. cbn [moved_pos start_line].
  destruct prev as [pn|]; cbn [option_map]; [rewrite ?moved_value, ?moved_at; cbn [moved_pos end_line]|rt].
  replace (k + end_line (node_pos pn) + 1 <? k + start_line (node_pos n)) with (end_line (node_pos pn) + 1 <? start_line (node_pos n)) by lia. rt.
Qed.
Lemma par_item : forall task l l', kpar l l' -> par (list_item o B task l) (list_item o B task l').
Proof.
  intros task l l' H. unfold list_item. rewrite (kpar_last _ _ H). apply par_seq; [apply par_updc|]. apply par_cx. intros c. apply par_seq; [apply par_emit|].
  destruct (item_base_indent o c) as [base|]; [|rt]. apply par_seq; [apply par_updc|]. apply par_seq; [apply (par_item_children _ _ _ None); exact H|].
  apply par_seq; [apply par_updc|]. destruct (last_child l); cbn [option_map]; rewrite ?moved_ends; rt.
Qed.
Lemma par_paragraph : forall n, ok n -> par (paragraph U ENT o src n) (paragraph U ENT o big (mv n)).
Proof.
  intros n H. unfold paragraph. rewrite moved_at, extract_moved, content_moved by (exact H || (apply ok_pos; exact H)). destruct (extract_source src (node_pos n)) as [source|]; [|rt]. cbv zeta.
  match goal with |- par (match ?x with Some _ => _ | None => _ end) _ => destruct x end; [rt|]. apply par_inline. intro x. rt.
Qed.
Lemma par_heading : forall n level, ok n -> par (heading U PN ENT o src n level) (heading U PN ENT o big (mv n) level).
Proof.
  intros n level H. unfold heading. rewrite collect_text_moved by exact H. apply par_inline. intros x.
  apply (par_get _ _ (fun x => x)); [reflexivity|]. intro; apply par_emit.
Qed.
Lemma par_details_paragraph : forall quote marker c, ok c -> par (details_paragraph U ENT o src quote marker c) (details_paragraph U ENT o big quote marker (mv c)).
Proof. intros quote marker c H. unfold details_paragraph. rewrite content_moved by exact H. apply par_seq; [apply par_emit|]. apply par_inline. intro x. rt. Qed.
Lemma par_with_item_indent : forall indent a b, par a b -> par (with_item_indent indent a) (with_item_indent indent b).
Proof. intros indent a b R. unfold with_item_indent. apply (par_get _ _ (fun x => x)); [reflexivity|]. intro x. rt. Qed.
Lemma par_details_children : forall quote l l' first, kpar l l' -> par (details_children U ENT o B src quote first l) (details_children U ENT o B big quote first l').
Proof.
  intros quote l l' first H. revert first. induction H as [|[n a] [m b] l l' (E & On & R) H IH]; intros first; [apply par_nop|]. cbn [fst snd] in *. subst m.
  cbn [details_children]. apply par_seq; [|apply IH]. rewrite moved_value.
  destruct first; [|apply par_seq; [apply par_emit|]]; destruct (node_value n) eqn:V; rt;
    first [apply par_with_item_indent; exact R | apply par_details_paragraph; exact On].
Qed.
Lemma par_details : forall l l', kpar l l' -> par (description_details U ENT o B src l) (description_details U ENT o B big l').
Proof. intros l l' H. unfold description_details. apply par_cx. intro c. rt. apply par_details_children. exact H. Qed.
Lemma par_description_list : forall l l' first, kpar l l' -> par (description_list first l) (description_list first l').
Proof.
  intros l l' first H. revert first. induction H as [|[n a] [m b] l l' (E & _ & R) H IH]; intro first; [apply par_nop|]. cbn [fst snd] in *.
  cbn [description_list]. rt; apply IH.
Qed.
Lemma par_table : forall p aligns rows, fine p -> Forall ok rows -> par (table U ENT o src p aligns rows) (table U ENT o big (moved_pos k p) aligns (map mv rows)).
Proof.
  intros p aligns rows [[F1 F2] F3] H. unfold table. rewrite nil_map. destruct (is_nil rows); [rt|]. rewrite rows_moved by exact H. apply par_seq.
  - apply par_warn. intros _. apply table_columns_moved; [exact F1|exact F3].
  - destruct (table_rows U ENT o src rows) as [[x e]|]; [|rt]. apply par_seq; [apply par_events|]. rt.
Qed.
Lemma par_link : forall next n url title l l', ok n -> kpar l l' -> par (link U ENT o src next n url title l) (link U ENT o big (option_map mv next) (mv n) url title l').
Proof.
  intros next n url title l l' On H. unfold link. cbv zeta. rewrite (kpar_fst _ _ H), existsb_moved by apply moved_is_image. rewrite moved_raw, moved_at, moved_bracket.
  rewrite style_moved by (apply ok_pos; exact On). rewrite collect_text_moved by exact On. pose proof (par_children _ _ H) as C.
  rt; apply par_inline; intros; rt.
Qed.
Lemma par_image : forall n url title, ok n -> par (image U ENT o src n url title) (image U ENT o big (mv n) url title).
Proof.
  intros n url title On. unfold image. rewrite moved_at, style_moved by (apply ok_pos; exact On). rewrite collect_text_moved by exact On. apply par_inline. intros; rt.
Qed.
Lemma par_single : forall a b h h', par a b -> (forall x, par (h x) (h' x)) -> par (single_block a h) (single_block b h').
Proof.
  intros a b h h' R H. unfold single_block. apply (par_get _ _ (fun x => x)); [reflexivity|]. intro x. apply par_seq; [apply par_set_output|].
  apply par_seq; [exact R|]. apply (par_get _ _ (fun x => x)); [reflexivity|]. intro y. apply par_seq; [apply par_set_output|apply H].
Qed.
Lemma par_footnote_blocks : forall l l' r first f f', kpar l l' -> (forall x, par (f x) (f' x)) -> par (footnote_blocks r first l f) (footnote_blocks r first l' f').
Proof.
  intros l l' r first f f' H F. revert r first. induction H as [|[n a] [m b] l l' (E & _ & R) H IH]; intros r first; cbn [footnote_blocks]; [apply F|].
  apply par_single; [exact R|]. intro x. apply IH.
Qed.
Lemma par_footnote_definition : forall name cs l l', Forall ok cs -> kpar l l' ->
  par (footnote_definition U ENT o src name cs l) (footnote_definition U ENT o big name (map mv cs) l').
Proof.
  intros name cs l l' Oc H. unfold footnote_definition. apply (par_get _ _ (moved_line k)).
  - intros s ws. cbn. rewrite assoc_line. destruct (assoc_str name _); reflexivity.
  - intro line. cbv zeta. apply par_seq; [apply par_set_collecting|]. rewrite moved_blocks.
    assert (Fin : forall hb x, par (set_collecting false 0 ;; add_footnote (mkFootnote name x line hb)) (set_collecting false 0 ;; add_footnote (mkFootnote name x (ml line) hb)))
      by (intros hb x; apply par_seq; [apply (par_set_collecting false 0)|apply (par_add_note (mkFootnote name x line hb))]).
    destruct (footnote_has_blocks cs).
    + apply par_footnote_blocks; [exact H|]. intro x. apply Fin.
    + rewrite next_inline_moved by exact Oc. apply par_inline. intro x. apply Fin.
Qed.
Lemma par_output_trailing : forall cs first, par (output_trailing first cs) (output_trailing first (map mv cs)).
Proof. induction cs as [|c cs IH]; intro first; cbn [map output_trailing]; [rt|]. rewrite moved_value. destruct (node_value c); rt; apply IH. Qed.
Lemma par_flush_some : forall l, par (flush_all U o checks (Some l)) (flush_all U o checks (Some (k + l))).
Proof. intro l. apply (par_flush_all (Some l)). Qed.
Lemma par_document_block : forall prev c a b, ok c -> par a b ->
  par (document_block U o src checks prev c a) (document_block U o big checks (option_map mv prev) (mv c) b).
Proof.
  intros prev c a b Oc R. unfold document_block. rewrite moved_separator, moved_level, moved_section, moved_at, extract_moved by (apply ok_pos; exact Oc).
  apply par_seq; [|apply par_seq; [apply par_emit|]].
  - cbn [moved_pos start_line]. destruct (heading_level c) as [[|[|[|[|?]]]]|], prev; cbn [option_map]; first [apply par_nop|apply par_flush_some].
  - apply (par_get _ _ (fun x => x)); [reflexivity|]. intro m. cbv zeta. rt.
Qed.
Lemma par_nouns : forall f g, par (upd (fun s => set_nouns (f (proper_nouns s)) (g (common_nouns s)) s)) (upd (fun s => set_nouns (f (proper_nouns s)) (g (common_nouns s)) s)).
Proof. intros f g. apply par_upd0; reflexivity. Qed.
Lemma par_directive : forall prev c literal d, par (directive_act U o checks prev c literal d) (directive_act U o checks (option_map mv prev) (mv c) literal d).
Proof.
  intros prev c literal d. unfold directive_act. cbv zeta. rewrite moved_at. cbn [moved_pos start_line].
  assert (E : match option_map mv prev with Some _ => [c_nl] | None => [] end = match prev with Some _ => [c_nl] | None => [] end) by (destruct prev; reflexivity).
  rewrite E. destruct d; rt; first [apply par_flush_some|apply par_upd0; reflexivity].
Qed.
Lemma par_disable_file : forall c literal, post = [] -> ends' = ends_nl -> ok c ->
  par (disable_file U o src ends_nl checks c literal) (disable_file U o big ends' checks (mv c) literal).
Proof.
  intros c literal P En Oc. unfold disable_file. rewrite moved_at. cbn [moved_pos start_line end_line]. apply par_seq; [apply par_flush_some|]. apply par_seq; [apply par_emit|].
  assert (E : extract_source_from_line big ends' (k + end_line (node_pos c) + 1) = extract_source_from_line src ends_nl (end_line (node_pos c) + 1)).
  { rewrite En. unfold extract_source_from_line. destruct (src_some _ (ok_pos _ Oc)) as [-> ->]. cbn [orb].
    replace (k + end_line (node_pos c) + 1 =? 0) with false by lia. replace (end_line (node_pos c) + 1 =? 0) with false by lia.
    replace (k + end_line (node_pos c) + 1 - 1) with (k + end_line (node_pos c)) by lia. replace (end_line (node_pos c) + 1 - 1) with (end_line (node_pos c)) by lia.
    rewrite P, app_nil_r, app_length. replace (k + List.length src <=? k + end_line (node_pos c)) with (List.length src <=? end_line (node_pos c)) by lia.
    destruct (_ <=? _); [reflexivity|]. rewrite skipn_app, (skipn_all2 pre) by lia. replace (k + end_line (node_pos c) - k) with (end_line (node_pos c)) by lia. reflexivity. }
  rewrite E. destruct (extract_source_from_line _ _ _); rt.
Qed.
(** Nothing after the text is read: there is nothing, or no disable-file directive. *)
Definition closed (c : node) : Prop := post = [] /\ ends' = ends_nl \/ directive_of c <> Some DisableFile.
Lemma par_document_loop : forall l l' ts prev f f', kpar l l' -> Forall (fun x => closed (fst x)) l -> par f f' ->
  par (document_loop U o src ends_nl checks ts prev l f) (document_loop U o big ends' checks ts (option_map mv prev) l' f').
Proof.
  intros l l' ts prev f f' H Cl F. revert ts prev. induction H as [|[n a] [m b] l l' (E & On & R) H IH]; intros ts prev; cbn [document_loop]; [exact F|].
  cbn [fst snd] in *. subst m. cbv zeta. apply Forall_cons_iff in Cl. destruct Cl as [Cn Cl]. cbn [fst] in Cn. pose proof (IH Cl (ts - 1) (Some n)) as C. cbn [option_map] in C.
  rewrite moved_is_html, moved_is_note, moved_directive, moved_value.
  destruct ((ts =? 0) && is_html_block n); [exact C|]. destruct (is_footnote_def n); [exact C|].
  assert (D : par (document_block U o src checks prev n a ;; document_loop U o src ends_nl checks (ts - 1) (Some n) l f)
                  (document_block U o big checks (option_map mv prev) (mv n) b ;; document_loop U o big ends' checks (ts - 1) (Some (mv n)) l' f'))
    by (apply par_seq; [apply par_document_block; assumption|exact C]).
  destruct (node_value n); try exact D. unfold closed in Cn. destruct (directive_of n) as [d|]; [|exact D].
  destruct d; try (apply par_seq; [apply par_directive|exact C]). destruct Cn as [[P En]|Cn]; [|congruence]. apply par_disable_file; assumption.
Qed.
Lemma par_document : forall p p' cs l l', Forall ok cs -> Forall closed cs -> map fst l = cs -> kpar l l' ->
  par (document U o src ends_nl checks (Node NDocument p cs) l) (document U o big ends' checks (Node NDocument p' (map mv cs)) l').
Proof.
  intros p p' cs l l' Oc Cl Ef H. unfold document. cbv zeta. rewrite (kpar_fst _ _ H), Ef, moved_trailing, skipn_map.
  destruct (undefined_moved p p' cs Oc) as (ws & ws' & -> & -> & A).
  apply par_seq; [apply par_warn; exact A|]. apply par_seq; [|apply par_seq].
  - cbn [collect_reference_lines]. apply par_seq; [apply par_nop|]. rewrite map_map. apply par_all. clear H Cl Ef A l l'.
    induction Oc as [|c cs Hc Oc IHc]; cbn [map]; constructor; [apply par_collect_lines; exact Hc|exact IHc].
  - apply par_all. clear Oc Cl Ef A. induction H as [|[m a] [m' b] l l' (E & _ & R) H IH]; cbn [map fst snd] in *; constructor; [|exact IH]. subst m'. rewrite moved_is_note. rt.
  - apply (par_document_loop _ _ _ None); [exact H| |].
    + rewrite <- Ef in Cl. clear Oc H Ef A. induction l as [|x l IH]; [constructor|]. cbn [map] in Cl. apply Forall_cons_iff in Cl. destruct Cl. constructor; auto.
    + apply par_seq; [apply (par_flush_all None)|apply par_output_trailing].
Qed.
Lemma kpar_next : forall (f g : option node -> node -> act) cs, Forall ok cs -> Forall (fun c => forall nx, par (f nx c) (g (option_map mv nx) (mv c))) cs ->
  kpar (combine cs (with_next f cs)) (combine (map mv cs) (with_next g (map mv cs))).
Proof.
  intros f g cs Oc H. induction H as [|c cs Hc H IH]; cbn [map with_next combine]; constructor; cbn [fst snd].
  - apply Forall_inv in Oc. split; [reflexivity|]. split; [exact Oc|]. pose proof (Hc (hd_error cs)) as X. destruct cs; exact X.
  - apply IH. apply Forall_inv_tail in Oc. exact Oc.
Qed.
Lemma combine_fst : forall (f : option node -> node -> act) cs, map fst (combine cs (with_next f cs)) = cs.
Proof. intros f cs. induction cs as [|c cs IH]; [reflexivity|]. cbn [with_next combine map fst]. rewrite IH. reflexivity. Qed.
Theorem par_serialize : forall n next, ok n -> no_document n = true ->
  par (serialize U PN ENT o B src ends_nl checks next n) (serialize U PN ENT o B big ends' checks (option_map mv next) (mv n)).
Proof.
  induction n as [v p cs IH] using node_ind'. intros next On Un. pose proof (ok_inv _ _ _ On) as [F Oc]. cbn [no_document] in Un. apply andb_true_iff in Un. destruct Un as [Nd Un]. rewrite forallb_forall in Un.
  assert (K : kpar (combine cs (with_next (serialize U PN ENT o B src ends_nl checks) cs)) (combine (map mv cs) (with_next (serialize U PN ENT o B big ends' checks) (map mv cs)))).
  { apply kpar_next; [exact Oc|]. rewrite Forall_forall in IH, Oc |- *. intros c Ic nx. apply (IH c Ic); auto. }
  assert (K' : kpar (combine cs (with_next (serialize U PN ENT o B src ends_nl checks) cs)) (combine (node_children (mv (Node v p cs))) (with_next (serialize U PN ENT o B big ends' checks) (node_children (mv (Node v p cs)))))) by exact K.
  change (mv (Node v p cs)) with (Node v (moved_pos k p) (map mv cs)) at 1.
  cbn [serialize]. cbv zeta.
  destruct v; try discriminate Nd;
    first [ apply par_block_quote; exact K | apply par_list; exact K
          | apply par_item; exact K | apply par_description_list; exact K | apply par_details; exact K
          | apply (par_paragraph _ On) | apply (par_heading _ _ On) | apply par_footnote_definition; [exact Oc|exact K]
          | apply par_table; [exact F|exact Oc] | apply (par_link _ _ _ _ _ _ On K) | apply (par_image _ _ _ On) | apply par_alert; exact K | apply par_children; exact K
          | rewrite ?extract_moved by exact F; unfold thematic_break ]; rt; first [apply par_children; exact K|apply par_record; apply F].
Qed.

Theorem root_moved : forall p p' cs, Forall ok cs -> Forall (fun c => no_document c = true) cs -> Forall closed cs ->
  meet (serialize_root U PN ENT o B src ends_nl checks (Node NDocument p cs))
       (serialize_root U PN ENT o B big ends' checks (Node NDocument p' (map mv cs))).
Proof.
  intros p p' cs Oc Nd Cl. unfold serialize_root. cbn [serialize]. cbv zeta.
  assert (P : par (document U o src ends_nl checks (Node NDocument p cs) (combine cs (with_next (serialize U PN ENT o B src ends_nl checks) cs)))
                  (document U o big ends' checks (Node NDocument p' (map mv cs)) (combine (map mv cs) (with_next (serialize U PN ENT o B big ends' checks) (map mv cs))))).
  { apply par_document; [exact Oc|exact Cl|apply combine_fst|]. apply kpar_next; [exact Oc|]. rewrite Forall_forall in *. intros c Ic nx. apply par_serialize; auto. }
  apply (P init_st []). intros _. constructor.
Qed.
End Shift.

(** ** Texts *)
Lemma ends_nl_split : forall s, ends_with_newline s = true -> exists t, s = t ++ [c_nl].
Proof.
  intros s H. unfold ends_with_newline, ends_with, strip_suffix in H. destruct (strip_prefix (rev [c_nl]) (rev s)) as [r|] eqn:E; [|discriminate H].
  exists (rev r). rewrite <- (rev_involutive s). destruct (rev s) as [|c r']; [discriminate E|]. cbn [rev app strip_prefix] in E. destruct (ceq_spec c_nl c) as [<-|]; [|discriminate E].
  injection E as <-. reflexivity.
Qed.
Lemma lines_aux_app : forall s cur t, lines_aux cur ((s ++ [c_nl]) ++ t) = lines_aux cur (s ++ [c_nl]) ++ lines t.
Proof.
  induction s as [|c s IH]; intros cur t; [reflexivity|]. cbn [app lines_aux]. destruct (ceq c c_nl); rewrite IH; reflexivity.
Qed.
Lemma lines_app : forall a b, ends_with_newline a = true -> lines (a ++ b) = lines a ++ lines b.
Proof. intros a b H. destruct (ends_nl_split a H) as (t & ->). apply lines_aux_app. Qed.
Lemma ends_nl_app : forall a b, b <> [] -> ends_with_newline (a ++ b) = ends_with_newline b.
Proof.
  intros a b N. unfold ends_with_newline, ends_with, strip_suffix. rewrite rev_app_distr. destruct (rev b) as [|c r] eqn:E.
  - destruct N. rewrite <- (rev_involutive b), E. reflexivity.
  - cbn [rev app strip_prefix]. destruct (ceq c_nl c); reflexivity.
Qed.
Lemma lines_newlines : forall n, lines (repeat c_nl n) = repeat [] n.
Proof. induction n as [|n IH]; [reflexivity|]. cbn [repeat]. unfold lines in *. cbn [lines_aux]. rewrite IH. reflexivity. Qed.
