(** Two runs whose options differ only in the line width go side by side: same
    context, references, warnings and formatter calls, and outputs with the
    same visible characters. *)
From Coq Require Import Bool Arith NArith Lia ZifyBool ZifyNat ZifyN String List.
From Verif Require Import Base BaseFacts OptsModel PunctModel WrapModel SpecWrap WrapProof PropsWrap CodeModel TableModel HeadingModel AstModel StateModel
  InlineModel WarnModel SerModel SpecContext CodeProof StateProof SerFacts ContextProof DocProof SpecSame SameProof CarryProof SpecWidth.
Import ListNotations.

Section Width.
Variable quotes : bool.
Local Notation core := (bare (layout_mark quotes false)).
Local Notation hides := (hidden quotes false).
Variable U : Uni.
Variable PN : list (str * str).
Variable ENT : str -> option str.
Variable o : Options.
Variable w : nat.
Variable B : backend.
Variable src : list str.
Variable ends_nl : bool.
Variable checks : bool.
Local Notation p := (with_width o w).

(** ** Texts *)
Definition white (s : str) : bool := forallb is_ws s.
Definition alike (x y : str) : Prop := core x = core y /\ white x = white y.
Lemma alike_refl : forall x, alike x x.
Proof. intro x. split; reflexivity. Qed.
Lemma alike_app : forall a b x y, alike a b -> alike x y -> alike (a ++ x) (b ++ y).
Proof. intros a b x y [A1 A2] [B1 B2]. split; [rewrite !core_app, A1, B1; reflexivity|]. unfold white in *. rewrite !forallb_app, A2, B2. reflexivity. Qed.
Lemma alike_blank : forall x y, white x = true -> white y = true -> alike x y.
Proof.
  assert (H : forall x, white x = true -> hides x).
  { intros x H. apply hidden_ws. apply Forall_forall. unfold white in H. rewrite forallb_forall in H. exact H. }
  intros x y X Y. split; [rewrite (H x X), (H y Y); reflexivity|congruence].
Qed.
Lemma white_trim_end : forall s, white (trim_end s) = white s.
Proof.
  intro s. destruct (trim_end_app s) as (v & E & W). unfold white. rewrite E at 2. rewrite forallb_app.
  replace (forallb is_ws v) with true; [rewrite andb_true_r; reflexivity|]. symmetry. apply forallb_forall. rewrite Forall_forall in W. exact W.
Qed.
Lemma alike_trim_end : forall x y, alike x y -> alike (trim_end x) (trim_end y).
Proof. intros x y [A1 A2]. split; [rewrite !core_trim_end; exact A1|rewrite !white_trim_end; exact A2]. Qed.
Lemma trim_end_white : forall s, white s = is_nil (trim_end s).
Proof.
  intro s. rewrite <- white_trim_end. destruct (trim_end_last s) as [->|(a & c & -> & D)]; [reflexivity|]. unfold white.
  rewrite forallb_app. cbn [forallb]. rewrite D, andb_false_r. destruct a; reflexivity.
Qed.
Lemma white_join : forall sep ls, white (join sep ls) = true -> Forall (fun l => white l = true) ls.
Proof.
  intros sep ls. induction ls as [|l ls IH]; intro H; [constructor|]. destruct ls as [|l' ls]; [constructor; [exact H|constructor]|].
  change (join sep (l :: l' :: ls)) with (l ++ sep ++ join sep (l' :: ls)) in H. unfold white in H, IH. rewrite !forallb_app, !andb_true_iff in H.
  destruct H as (H1 & _ & H2). constructor; [exact H1|]. apply IH. exact H2.
Qed.
Lemma white_nonws : forall s, white s = true -> nonws s = [].
Proof. intros s H. apply nonws_ws. apply Forall_forall. unfold white in H. rewrite forallb_forall in H. exact H. Qed.
Lemma white_piece : forall (ok : str -> Prop) s L, lays_out ok s L -> white (render_piece (map wl_t L)) = true -> nonws s = [].
Proof.
  intros ok s L (_ & F & E & _) H. rewrite <- E. clear E. apply white_join in H. induction F as [|x L [_ (v & Bv & Q)] F IH]; [reflexivity|].
  cbn [map] in H. apply Forall_cons_iff in H. destruct H as [H1 H2]. cbn [map List.concat]. rewrite nonws_app, IH by exact H2. rewrite app_nil_r.
  assert (G : nonws (wl_p x ++ wl_b x) = []) by (rewrite Q, nonws_app, (white_nonws _ H1), (nonws_ws v Bv); reflexivity).
  rewrite nonws_app in G. destruct (nonws (wl_p x)); [exact G|discriminate G].
Qed.
Lemma nonws_segments : forall t, Forall (fun s => nonws s = []) (segments t) -> nonws t = [].
Proof.
  intros t H. rewrite <- (join_split_on c_nl t), nonws_join by (left; reflexivity).
  unfold segments in H. induction H as [|s ss E F IH]; [reflexivity|]. cbn [map List.concat]. rewrite E, IH. reflexivity.
Qed.
Lemma wrap_shows : forall V t q lw, nonws t <> [] -> white (wrap_text V t q lw) = false.
Proof.
  intros V t q lw N. destruct (white (wrap_text V t q lw)) eqn:W; [|reflexivity]. exfalso. apply N.
  destruct (C06_C07_wrap_text V t q lw) as (Ls & E & F & _). rewrite E in W. unfold render_text in W. apply white_join in W. apply nonws_segments.
  clear E N. induction F as [|s L ss Ls L1 F IH]; [constructor|]. cbn [map] in W. apply Forall_cons_iff in W. destruct W as [W1 W2].
  constructor; [eapply white_piece; eassumption|apply IH; exact W2].
Qed.
Lemma wrap_first_shows : forall V t fp cp lw, nonws t <> [] -> white (wrap_text_first_line V t fp cp lw) = false.
Proof.
  intros V t fp cp lw N. destruct (white (wrap_text_first_line V t fp cp lw)) eqn:W; [|reflexivity]. exfalso. apply N.
  destruct (C06_C07_wrap_text_first_line_partial V t fp cp lw) as (L & Ls & s & ss & Es & E & L1 & F & _). rewrite E in W. unfold render_text in W.
  apply white_join in W. apply nonws_segments. rewrite Es. cbn [map] in W. apply Forall_cons_iff in W. destruct W as [W1 W2].
  constructor; [eapply white_piece; eassumption|]. clear - F W2.
  induction F as [|s L ss Ls L1 F IH]; [constructor|]. cbn [map] in W2. apply Forall_cons_iff in W2. destruct W2 as [W1 W2].
  constructor; [eapply white_piece; eassumption|apply IH; exact W2].
Qed.
Lemma wrap_alike : forall V t q l1 l2, hides q -> nonws t <> [] -> alike (wrap_text V t q l1) (wrap_text V t q l2).
Proof. intros V t q l1 l2 H N. split; [rewrite !core_wrap by exact H; reflexivity|rewrite !wrap_shows by exact N; reflexivity]. Qed.
Lemma wrap_first_alike : forall V t cp l1 l2, hides cp -> nonws t <> [] -> alike (wrap_text_first_line V t [] cp l1) (wrap_text_first_line V t [] cp l2).
Proof.
  intros V t cp l1 l2 H N. split; [rewrite !core_wrap_first by (exact H || reflexivity); reflexivity|rewrite !wrap_first_shows by exact N; reflexivity].
Qed.

(** ** Footnotes *)
Lemma core_concat : forall ls, core (List.concat ls) = List.concat (map core ls).
Proof. induction ls as [|l ls IH]; [reflexivity|]. cbn [List.concat map]. rewrite core_app, IH. reflexivity. Qed.
Lemma core_strip_cr : forall s, core (strip_cr s) = core s.
Proof.
  intro s. unfold strip_cr. destruct (rev s) as [|c r] eqn:E; [reflexivity|]. destruct (ceq_spec c c_cr) as [->|]; [|reflexivity].
  rewrite <- (rev_involutive s), E. cbn [rev]. rewrite core_app. cbn. rewrite app_nil_r. reflexivity.
Qed.
Lemma core_lines : forall s cur, List.concat (map core (lines_aux cur s)) = core (rev cur ++ s).
Proof.
  induction s as [|c s IH]; intro cur; cbn [lines_aux].
  - rewrite app_nil_r. destruct cur; [reflexivity|]. cbn [is_nil map List.concat]. apply app_nil_r.
  - destruct (ceq_spec c c_nl) as [->|].
    + cbn [map List.concat]. rewrite IH, core_strip_cr. cbn [rev app]. change (c_nl :: s) with ([c_nl] ++ s). rewrite !core_app. reflexivity.
    + rewrite IH. cbn [rev]. rewrite <- app_assoc. reflexivity.
Qed.
Lemma core_body : forall prefix indent ls, hides indent -> ls <> [] -> core (footnote_body prefix indent ls) = core prefix ++ List.concat (map core ls).
Proof.
  intros prefix indent ls H N. destruct ls as [|l r]; [contradiction|]. unfold footnote_body. rewrite !core_app. cbn [map List.concat].
  f_equal. f_equal. change (core [c_nl]) with (@nil char). cbn [app]. clear N l. induction r as [|x r IH]; [reflexivity|].
  cbn [flat_map map List.concat]. rewrite !core_app, IH. change (core [c_nl]) with (@nil char). rewrite app_nil_r. f_equal.
  destruct x; [reflexivity|]. cbn [is_nil]. rewrite core_app, H. reflexivity.
Qed.
Lemma core_footnote_lines : forall fw cw ws first cur, List.concat (map core (footnote_lines U fw cw first cur ws)) = core cur ++ List.concat (map core ws).
Proof.
  induction ws as [|x ws IH]; intros first cur; cbn [footnote_lines].
  - destruct cur; [reflexivity|]. reflexivity.
  - destruct cur as [|c cur]; [apply IH|]. cbn [is_nil]. destruct (fits _ _).
    + rewrite IH, !core_app. cbn [map List.concat]. rewrite <- !app_assoc. reflexivity.
    + cbn [map List.concat]. rewrite IH. reflexivity.
Qed.
Lemma footnote_lines_some : forall fw cw ws first cur, cur <> [] -> footnote_lines U fw cw first cur ws <> [].
Proof.
  induction ws as [|x ws IH]; intros first cur N; cbn [footnote_lines]; (destruct cur as [|c cur]; [contradiction|]); cbn [is_nil]; [discriminate|].
  destruct (fits _ _); [|discriminate]. apply IH. discriminate.
Qed.
Lemma body_shows : forall name indent ls, ls <> [] -> white (footnote_body (lit "[^" ++ name ++ lit "]: ") indent ls) = false.
Proof. intros name indent [|l r] N; [contradiction|reflexivity]. Qed.
Lemma core_split : forall s cur, List.concat (map core (split_ws_aux cur s)) = core (rev cur ++ s).
Proof.
  induction s as [|c s IH]; intro cur; cbn [split_ws_aux].
  - rewrite app_nil_r. destruct cur; [reflexivity|]. cbn [is_nil map List.concat]. apply app_nil_r.
  - destruct (is_ws c) eqn:Wc.
    + assert (G : core (rev cur ++ c :: s) = core (rev cur) ++ core s).
      { change (c :: s) with ([c] ++ s). rewrite !core_app. rewrite (hidden_ws quotes false [c]) by (repeat constructor; exact Wc). reflexivity. }
      rewrite G. destruct cur as [|d cur]; cbn [is_nil]; [rewrite IH; reflexivity|]. cbn [map List.concat]. rewrite IH. reflexivity.
    + rewrite IH. cbn [rev]. rewrite <- app_assoc. reflexivity.
Qed.
Lemma words_full : forall s cur, Forall (fun x => x <> []) (split_ws_aux cur s).
Proof.
  induction s as [|c s IH]; intro cur; cbn [split_ws_aux].
  - destruct cur as [|d cur]; [constructor|]. constructor; [|constructor]. cbn [rev]. destruct (rev cur); discriminate.
  - destruct (is_ws c); [|apply IH]. destruct cur as [|d cur]; [apply IH|]. constructor; [|apply IH]. cbn [rev]. destruct (rev cur); discriminate.
Qed.
Definition indent_of (f : footnote) : str := spaces (byte_len (lit "[^" ++ fn_name f ++ lit "]: ")).
Lemma core_footnote_text : forall q f t, footnote_text U q checks f = Ok t ->
  (fn_has_blocks f = true /\ fn_content f = [] /\ t = [])
  \/ (fn_has_blocks f = true -> fn_content f <> []) /\ core t = core (lit "[^" ++ fn_name f ++ lit "]: ") ++ core (fn_content f) /\ white t = false.
Proof.
  intros q f t E. unfold footnote_text in E. destruct (fn_has_blocks f).
  - assert (t = footnote_body (lit "[^" ++ fn_name f ++ lit "]: ") (indent_of f) (lines (fn_content f))) as -> by (unfold indent_of; cbv zeta in E; congruence). clear E.
    destruct (fn_content f) as [|c r] eqn:C; [left; auto|]. right. split; [discriminate|]. rewrite <- C.
    assert (N : lines (fn_content f) <> []).
    { rewrite C. unfold lines. cbn [lines_aux]. destruct (ceq c c_nl); [discriminate|]. clear. generalize (@nil char). revert c.
      induction r as [|d r IH]; intros c cur; cbn [lines_aux]; [discriminate|]. destruct (ceq d c_nl); [discriminate|]. apply IH. }
    split; [|apply body_shows; exact N]. rewrite core_body by (apply hidden_spaces || exact N). unfold lines. rewrite core_lines. reflexivity.
  - right. split; [discriminate|].
    destruct (sub_usize checks (line_width q) _) as [fw|]; [|discriminate E]. cbn [rbind] in E.
    destruct (sub_usize checks (line_width q) _) as [cw|]; [|discriminate E]. cbn [rbind] in E. cbv zeta in E.
    set (s := replace_char c_nul [c_sp] (fn_content f)) in *.
    assert (S : core (fn_content f) = List.concat (map core (split_whitespace s))) by (unfold split_whitespace; rewrite core_split; symmetry; apply (core_nul quotes false)).
    rewrite S. pose proof (words_full s []) as F. fold (split_whitespace s) in F. destruct (split_whitespace s) as [|x ws].
    + cbn [is_nil] in E. match type of E with Ok ?x = _ => replace t with x by congruence end. split; [rewrite core_app; reflexivity|reflexivity].
    + cbn [is_nil] in E. match type of E with Ok ?x = _ => replace t with x by congruence end. cbn [footnote_lines is_nil].
      apply Forall_inv in F. split; [|apply body_shows; apply footnote_lines_some; exact F].
      rewrite core_body by (apply hidden_spaces || (apply footnote_lines_some; exact F)). rewrite core_footnote_lines. reflexivity.
Qed.
(** A footnote up to the layout of its content. *)
Definition digest (f : footnote) : footnote :=
  mkFootnote (fn_name f) (match fn_content f with [] => [] | _ => c_sp :: core (fn_content f) end) (fn_reference_line f) (fn_has_blocks f).
Definition digest_kv (kv : str * footnote) : str * footnote := (fst kv, digest (snd kv)).
Lemma digest_core : forall f g, digest f = digest g -> core (fn_content f) = core (fn_content g) /\ (fn_content f = [] <-> fn_content g = []).
Proof.
  intros f g E. injection E as _ C _ _. destruct (fn_content f), (fn_content g); try discriminate C; [split; [reflexivity|tauto]|].
  injection C as C. split; [exact C|]. split; discriminate.
Qed.
Lemma footnote_alike : forall f g t u, digest f = digest g -> footnote_text U o checks f = Ok t -> footnote_text U p checks g = Ok u -> alike t u.
Proof.
  intros f g t u E T G. destruct (digest_core _ _ E) as [C N]. assert (fn_name f = fn_name g) as Nm by (injection E; auto).
  assert (fn_has_blocks f = fn_has_blocks g) as Hb by (injection E; auto).
  destruct (core_footnote_text o f t T) as [(B1 & C1 & ->)|(B1 & C1 & W1)], (core_footnote_text p g u G) as [(B2 & C2 & ->)|(B2 & C2 & W2)].
  - apply alike_refl.
  - exfalso. apply B2; [congruence|]. apply N. exact C1.
  - exfalso. apply B1; [congruence|]. apply N. exact C2.
  - split; [rewrite C1, C2, Nm, C; reflexivity|congruence].
Qed.
Lemma footnote_panics : forall q f, footnote_text U q checks f = Panic -> checks = true.
Proof.
  intros q f E. unfold footnote_text in E. destruct (fn_has_blocks f); [discriminate|].
  destruct checks; [reflexivity|]. unfold sub_usize in E. destruct (_ <=? _); cbn [rbind] in E; (destruct (_ <=? _); cbn [rbind] in E; cbv zeta in E; destruct (is_nil _); discriminate E).
Qed.

(** ** Actions *)
Local Notation okc := (ctx_ok quotes false).
Record near (s t : st) : Prop := mkNear {
  nr_output : alike (output s) (output t);
  nr_cx : cx s = cx t;
  nr_ok : okc (cx s);
  nr_pending : pending_references s = pending_references t;
  nr_emitted : emitted_references s = emitted_references t;
  nr_skip : skip s = skip t;
  nr_warnings : warnings s = warnings t;
  nr_proper : proper_nouns s = proper_nouns t;
  nr_common : common_nouns s = common_nouns t;
  nr_calls : calls s = calls t;
  nr_codes : codes (trace s) = codes (trace t);
  nr_notes : map digest_kv (f_pending (footnotes s)) = map digest_kv (f_pending (footnotes t));
  nr_written : f_emitted (footnotes s) = f_emitted (footnotes t);
  nr_lines : f_reference_lines (footnotes s) = f_reference_lines (footnotes t);
  nr_collecting : f_collecting (footnotes s) = f_collecting (footnotes t);
  nr_current : f_current_line (footnotes s) = f_current_line (footnotes t);
  nr_refs : f_pending_references (footnotes s) = f_pending_references (footnotes t)
}.
(** With overflow checks the runs may panic at different footnotes. *)
Definition meet (x y : res st) : Prop :=
  match x, y with Ok s, Ok t => near s t | Panic, Panic => True | _, _ => checks = true end.
Definition par (a b : act) : Prop := forall s t, near s t -> meet (a s) (b t).
Ltac near_open := repeat match goal with H : near _ _ |- _ => destruct H end; cbn [set_output set_cx set_pending set_emitted set_footnotes set_skip set_warnings set_nouns
  set_calls set_trace output cx pending_references emitted_references footnotes skip warnings proper_nouns common_nouns calls trace
  f_reference_lines f_emitted f_pending f_pending_references f_collecting f_current_line] in *.
Ltac near_all := near_open; constructor; cbn [set_output set_cx set_pending set_emitted set_footnotes set_skip set_warnings set_nouns
  set_calls set_trace output cx pending_references emitted_references footnotes skip warnings proper_nouns common_nouns calls trace
  f_reference_lines f_emitted f_pending f_pending_references f_collecting f_current_line]; try congruence; try assumption.
Lemma par_nop : par nop nop.
Proof. intros s t H. exact H. Qed.
Lemma par_panic : par panic panic.
Proof. intros s t H. exact Logic.I. Qed.
Lemma par_seq : forall a a' b b', par a a' -> par b b' -> par (a ;; b) (a' ;; b').
Proof.
  intros a a' b b' A Bb s t H. unfold seqa. specialize (A s t H). destruct (a s) as [x|], (a' t) as [y|]; cbn [meet rbind] in *.
  - apply Bb. exact A.
  - destruct (b x); first [exact A|exact Logic.I].
  - destruct (b' y); first [exact A|exact Logic.I].
  - exact Logic.I.
Qed.
Lemma par_all : forall l m, Forall2 par l m -> par (all l) (all m).
Proof. intros l m H. induction H; cbn [all fold_right]; [apply par_nop|]. apply par_seq; assumption. Qed.
Lemma par_get : forall A (P : A -> A -> Prop) f k k', (forall s t, near s t -> P (f s) (f t)) -> (forall x y, P x y -> par (k x) (k' y)) ->
  par (get f k) (get f k').
Proof. intros A P f k k' F K s t H. unfold get. apply (K (f s) (f t)); [apply F; exact H|exact H]. Qed.
Lemma par_get_eq : forall A (f : st -> A) k k', (forall s t, near s t -> f s = f t) -> (forall x, par (k x) (k' x)) ->
  par (get f k) (get f k').
Proof. intros A f k k' F K. apply (par_get A eq); [exact F|]. intros x y <-. apply K. Qed.
Lemma par_cx : forall k k', (forall c, okc c -> par (k c) (k' c)) -> par (get cx k) (get cx k').
Proof. intros k k' K. apply (par_get _ (fun c d => c = d /\ okc c)); [intros s t H; split; apply H|]. intros x y [<- H]. apply K. exact H. Qed.
Lemma par_skip : forall k k', (forall c, par (k c) (k' c)) -> par (get skip k) (get skip k').
Proof. intros k k' K. apply par_get_eq; [|exact K]. intros s t H. apply H. Qed.
Lemma par_emit_alike : forall x y, alike x y -> par (emit x) (emit y).
Proof. intros x y A s t H. unfold emit, upd. cbn [meet]. near_all. apply alike_app; assumption. Qed.
Lemma par_emit : forall x, par (emit x) (emit x).
Proof. intro x. apply par_emit_alike. apply alike_refl. Qed.
Lemma par_log : forall e e', codes [e] = codes [e'] -> par (log e) (log e').
Proof. intros e e' E s t H. unfold log, upd. cbn [meet]. near_all. rewrite !codes_app. congruence. Qed.
Lemma par_use : forall r, par (add_reference r) (add_reference r).
Proof.
  intros r s t H. unfold add_reference, upd. cbn [meet]. cbv zeta. rewrite (nr_collecting _ _ H), (nr_current _ _ H), (nr_refs _ _ H), (nr_pending _ _ H).
  destruct (f_collecting (footnotes t)); near_all; rewrite !codes_app; congruence.
Qed.
Lemma par_updc : forall f, (forall c, okc c -> okc (f c)) -> par (updc f) (updc f).
Proof. intros f F s t H. unfold updc, upd. cbn [meet]. near_all. apply F. assumption. Qed.
Lemma par_warn : forall v, par (upd (fun s => set_warnings (warnings s ++ v) s)) (upd (fun s => set_warnings (warnings s ++ v) s)).
Proof. intros v s t H. unfold upd. cbn [meet]. near_all. Qed.
Lemma par_call : forall v c, par (upd (fun s => set_calls (calls s ++ c) (set_warnings (warnings s ++ v) s)))
  (upd (fun s => set_calls (calls s ++ c) (set_warnings (warnings s ++ v) s))).
Proof. intros v c s t H. unfold upd. cbn [meet]. near_all. Qed.
Lemma par_set_skip : forall m, par (upd (set_skip m)) (upd (set_skip m)).
Proof. intros m s t H. unfold upd. cbn [meet]. near_all. Qed.
Lemma par_set_pending : forall x, par (upd (set_pending x)) (upd (set_pending x)).
Proof. intros x s t H. unfold upd. cbn [meet]. near_all. Qed.
Lemma par_set_output : forall x y, alike x y -> par (upd (set_output x)) (upd (set_output y)).
Proof. intros x y A s t H. unfold upd. cbn [meet]. near_all. Qed.
Lemma par_set_emitted : forall k, par (upd (fun s => set_emitted (set_insert k (emitted_references s)) s)) (upd (fun s => set_emitted (set_insert k (emitted_references s)) s)).
Proof. intros k s t H. unfold upd. cbn [meet]. near_all. Qed.
Lemma par_nouns : forall f g, (forall s t, near s t -> f s = f t) -> (forall s t, near s t -> g s = g t) ->
  par (upd (fun s => set_nouns (f s) (g s) s)) (upd (fun s => set_nouns (f s) (g s) s)).
Proof. intros f g F G s t H. unfold upd. cbn [meet]. rewrite (F s t H), (G s t H). near_all. Qed.
Lemma par_record : forall n l, par (record_reference_line n l) (record_reference_line n l).
Proof.
  intros n l s t H. unfold record_reference_line, upd. cbn [meet]. cbv zeta. rewrite <- (nr_lines _ _ H).
  destruct (assoc_str n (f_reference_lines (footnotes s))); near_all.
Qed.
Lemma par_set_collecting : forall b l, par (set_collecting b l) (set_collecting b l).
Proof. intros b l s t H. unfold set_collecting, upd. cbn [meet]. near_all. Qed.
Lemma digest_imap : forall k v m, map digest_kv (imap_insert k v m) = imap_insert k (digest v) (map digest_kv m).
Proof.
  intros k v m. induction m as [|[k' v'] m IH]; [reflexivity|]. cbn [imap_insert map digest_kv fst snd]. destruct (seqb k k'); cbn [map]; [reflexivity|].
  rewrite IH. reflexivity.
Qed.
Lemma par_add_note : forall f g, digest f = digest g -> par (add_footnote f) (add_footnote g).
Proof.
  intros f g E s t H. unfold add_footnote, upd. cbn [meet]. near_all. rewrite !digest_imap, E. injection E as -> _ _ _. congruence.
Qed.
Definition blank_line (out : str) : str :=
  if ends_with [c_nl; c_nl] out then [] else if ends_with [c_nl] out then [c_nl] else [c_nl; c_nl].
Lemma ensure_eq : forall s, ensure_blank_line s = emit (blank_line (output s)) s.
Proof.
  intro s. unfold ensure_blank_line, get, blank_line. destruct (ends_with _ _); [|destruct (ends_with _ _); reflexivity].
  unfold nop, emit, upd. rewrite app_nil_r. destruct s; reflexivity.
Qed.
Lemma blank_line_white : forall out, white (blank_line out) = true.
Proof. intro out. unfold blank_line. destruct (ends_with _ _); [reflexivity|]. destruct (ends_with _ _); reflexivity. Qed.
Lemma par_ensure : par ensure_blank_line ensure_blank_line.
Proof.
  intros s t H. rewrite !ensure_eq. apply par_emit_alike; [|exact H]. apply alike_blank; apply blank_line_white.
Qed.
Lemma par_write_reference : forall r, par (write_reference r) (write_reference r).
Proof. intro r. unfold write_reference. apply par_seq; [apply par_log; reflexivity|]. apply par_seq; [apply par_emit|apply par_set_emitted]. Qed.
Lemma par_write_references : forall l, par (all (map write_reference l)) (all (map write_reference l)).
Proof. intro l. apply par_all. induction l; cbn [map]; constructor; [apply par_write_reference|assumption]. Qed.
Lemma par_flush_references : par flush_references flush_references.
Proof.
  unfold flush_references. apply par_get_eq; [intros s t H; apply H|]. intro q. destruct (is_nil q); [apply par_nop|].
  apply par_get_eq; [intros s t H; apply H|]. intro em. cbv zeta. apply par_seq; [apply par_set_pending|].
  destruct (is_nil _); [apply par_nop|]. apply par_seq; [apply par_ensure|apply par_write_references].
Qed.
Lemma par_flush_note_refs : forall l, par (flush_footnote_references_before l) (flush_footnote_references_before l).
Proof.
  intros l s t H. unfold flush_footnote_references_before, get. rewrite <- (nr_refs _ _ H).
  destruct (is_nil _); [exact H|]. cbv zeta. rewrite <- (nr_emitted _ _ H). unfold seqa at 1 3. unfold upd. cbn [rbind].
  match goal with |- meet ((if is_nil ?x then nop else ensure_blank_line ;; all (map write_reference ?y)) _) _ =>
    assert (R : par (if is_nil x then nop else ensure_blank_line ;; all (map write_reference y)) (if is_nil x then nop else ensure_blank_line ;; all (map write_reference y))) end.
  { destruct (is_nil _); [apply par_nop|]. apply par_seq; [apply par_ensure|apply par_write_references]. }
  apply R. near_all.
Qed.
Lemma par_write_footnote : forall f g, digest f = digest g -> par (write_footnote U o checks f) (write_footnote U p checks g).
Proof.
  intros f g E. unfold write_footnote. destruct (footnote_text U o checks f) as [t|] eqn:T, (footnote_text U p checks g) as [u|] eqn:G.
  - apply par_seq; [apply par_log; reflexivity|]. apply par_seq; [apply par_emit_alike; eapply footnote_alike; eassumption|].
    intros s v H. unfold upd. cbn [meet]. cbv zeta. near_all. injection E as -> _ _ _. congruence.
  - intros s v H. unfold panic. assert (checks = true) as Ck by (eapply footnote_panics; exact G). exact Ck.
  - intros s v H. unfold panic. assert (checks = true) as Ck by (eapply footnote_panics; exact T). exact Ck.
  - apply par_panic.
Qed.
Lemma digest_tl : forall f g l m, map digest (f :: l) = map digest (g :: m) -> digest f = digest g /\ map digest l = map digest m.
Proof. intros f g l m E. split; [exact (f_equal (hd (digest f)) E)|exact (f_equal (@tl _) E)]. Qed.
Lemma par_write_footnotes : forall l m, map digest l = map digest m ->
  par (all (map (write_footnote U o checks) l)) (all (map (write_footnote U p checks) m)).
Proof.
  induction l as [|f l IH]; intros [|g m] E; try discriminate; [apply par_nop|]. apply digest_tl in E. destruct E as [E1 E2].
  cbn [map all fold_right]. apply par_seq; [apply par_write_footnote; exact E1|]. apply IH. exact E2.
Qed.
Lemma numeric_digest : forall l, map (fun x => (fst x, digest (snd x))) (numeric_of note_num l) = numeric_of note_num (map digest l).
Proof.
  induction l as [|f l IH]; [reflexivity|]. unfold numeric_of in *. cbn [flat_map map]. rewrite map_app, IH. f_equal.
  unfold note_num. cbn [digest fn_name]. destruct (extract_numeric_footnote_name (fn_name f)); reflexivity.
Qed.
Lemma sort_digest : forall l : list (N * footnote), map (fun x => (fst x, digest (snd x))) (sort_by_key l)
  = sort_by_key (map (fun x => (fst x, digest (snd x))) l).
Proof.
  induction l as [|x l IH]; [reflexivity|]. cbn [sort_by_key fold_right map]. fold (sort_by_key l).
  change (fold_right insert_by_key [] (map (fun x => (fst x, digest (snd x))) l)) with (sort_by_key (map (fun x => (fst x, digest (snd x))) l)).
  rewrite <- IH. generalize (sort_by_key l) as m. induction m as [|y m IHm]; [reflexivity|]. cbn [insert_by_key map fst].
  destruct (fst x <=? fst y)%N; cbn [map]; [reflexivity|]. rewrite IHm. reflexivity.
Qed.
Lemma flush_order_digest : forall l, map digest (flush_order note_num l) = flush_order note_num (map digest l).
Proof.
  intro l. unfold flush_order. rewrite <- numeric_digest, map_length. destruct (_ <? 2); [reflexivity|]. rewrite map_app. f_equal.
  - unfold regular_of. apply filter_map_comm. reflexivity.
  - rewrite <- sort_digest, !map_map. reflexivity.
Qed.
Lemma reinsert_digest : forall l m, map digest_kv (fold_left (fun m kv => imap_insert (fst kv) (snd kv) m) l m)
  = fold_left (fun m kv => imap_insert (fst kv) (snd kv) m) (map digest_kv l) (map digest_kv m).
Proof. induction l as [|kv l IH]; intro m; [reflexivity|]. cbn [fold_left map]. rewrite IH, digest_imap. reflexivity. Qed.
Lemma par_flush_notes : forall l, par (flush_footnotes_before U o checks l) (flush_footnotes_before U p checks l).
Proof.
  intros l s t A. unfold flush_footnotes_before, get.
  assert (P : map digest_kv (f_pending (footnotes s)) = map digest_kv (f_pending (footnotes t))) by apply A.
  assert (E : f_emitted (footnotes s) = f_emitted (footnotes t)) by apply A.
  assert (N : is_nil (f_pending (footnotes s)) = is_nil (f_pending (footnotes t)))
    by (destruct (f_pending (footnotes s)), (f_pending (footnotes t)); try discriminate; reflexivity).
  rewrite <- N. destruct (is_nil _); [exact A|]. clear N. rewrite <- E.
  set (g := fun kv : str * footnote => negb (mem (fst kv) (f_emitted (footnotes s)))).
  assert (L : map digest_kv (filter g (f_pending (footnotes s))) = map digest_kv (filter g (f_pending (footnotes t))))
    by (rewrite !(filter_map_comm _ _ digest_kv g g) by reflexivity; rewrite P; reflexivity).
  set (l1 := filter g (f_pending (footnotes s))) in *. set (l2 := filter g (f_pending (footnotes t))) in *. clearbody l1 l2.
  set (d := fun kv : str * footnote => due l (fn_reference_line (snd kv))).
  assert (D : map digest (map snd (filter d l1)) = map digest (map snd (filter d l2))).
  { rewrite !map_map. rewrite <- !(map_map digest_kv snd). rewrite !(filter_map_comm _ _ digest_kv d d) by reflexivity. rewrite L. reflexivity. }
  assert (K : map digest_kv (filter (fun kv => negb (d kv)) l1) = map digest_kv (filter (fun kv => negb (d kv)) l2)).
  { rewrite !(filter_map_comm _ _ digest_kv (fun kv => negb (d kv)) (fun kv => negb (d kv))) by reflexivity. rewrite L. reflexivity. }
  set (e1 := map snd (filter d l1)) in *. set (e2 := map snd (filter d l2)) in *.
  change (fun kv : str * footnote => negb (due l (fn_reference_line (snd kv)))) with (fun kv => negb (d kv)).
  set (k1 := filter (fun kv => negb (d kv)) l1) in *. set (k2 := filter (fun kv => negb (d kv)) l2) in *. clearbody e1 e2 k1 k2.
  assert (N : is_nil e1 = is_nil e2) by (destruct e1, e2; try discriminate; reflexivity).
  rewrite <- N. unfold seqa at 1 3. unfold upd. cbn [rbind].
  assert (R : par (if is_nil e1 then nop else ensure_blank_line ;; all (map (write_footnote U o checks) (flush_order note_num e1)))
                  (if is_nil e1 then nop else ensure_blank_line ;; all (map (write_footnote U p checks) (flush_order note_num e2)))).
  { destruct (is_nil e1); [apply par_nop|]. apply par_seq; [apply par_ensure|]. apply par_write_footnotes. rewrite !flush_order_digest, D. reflexivity. }
  apply R. near_all. unfold reinsert. rewrite !reinsert_digest, K. reflexivity.
Qed.
Lemma par_flush_all : forall l, par (flush_all U o checks l) (flush_all U p checks l).
Proof.
  intro l. unfold flush_all. apply par_seq; [apply par_flush_notes|]. apply par_seq; [apply par_flush_references|apply par_flush_note_refs].
Qed.

(** Collectors do not look at the width. *)
Lemma same_inline : collect_inline U ENT p src = collect_inline U ENT o src.
Proof. reflexivity. Qed.
Lemma same_text : collect_text U ENT p src = collect_text U ENT o src.
Proof. reflexivity. Qed.
Lemma par_events : forall evs, par (all (map do_event evs)) (all (map do_event evs)).
Proof.
  intro evs. apply par_all. induction evs as [|e evs IH]; cbn [map]; constructor; [|exact IH]. destruct e as [r|x]; cbn [do_event]; [apply par_use|apply par_log; reflexivity].
Qed.
Lemma par_inline : forall v k k', (forall x evs, v = Ok (x, evs) -> par (k x) (k' x)) -> par (inline v k) (inline v k').
Proof. intros [[x e]|] k k' K; cbn [inline]; [|apply par_panic]. apply par_seq; [apply par_events|eapply K; reflexivity]. Qed.
Lemma par_code : forall f, par (code_act f) (code_act f).
Proof.
  intro f. unfold code_act. apply par_get_eq; [intros s t H; f_equal; apply H|].
  intro n. destruct (f n) as [text eff]. apply par_seq; [apply par_call|]. apply par_seq; [apply par_log; reflexivity|apply par_emit].
Qed.

(** Children. *)
Definition kpar (k k' : kids) : Prop := Forall2 (fun x y => fst x = fst y /\ par (snd x) (snd y)) k k'.
Lemma kpar_fst : forall k k', kpar k k' -> map fst k = map fst k'.
Proof. intros k k' H. induction H as [|x y k k' [E _] H IH]; [reflexivity|]. cbn [map]. congruence. Qed.
Lemma kpar_last : forall k k', kpar k k' -> last_child k = last_child k'.
Proof.
  intros k k' H. induction H as [|[n a] [m b] k k' [E _] H IH]; [reflexivity|]. cbn [fst] in E. subst m. cbn [last_child].
  inversion H; subst; [reflexivity|]. destruct x, y. exact IH.
Qed.
Lemma par_children : forall k k', kpar k k' -> par (children_acts k) (children_acts k').
Proof. intros k k' H. apply par_all. induction H as [|x y k k' [_ R] H IH]; cbn [map]; constructor; assumption. Qed.

Ltac rs :=
  lazymatch goal with
  | |- par nop nop => apply par_nop
  | |- par panic panic => apply par_panic
  | |- par (emit ?x) (emit ?x) => apply par_emit
  | |- par (log ?x) (log ?x) => apply par_log; reflexivity
  | |- par (upd (set_skip _)) (upd (set_skip _)) => apply par_set_skip
  | |- par (flush_all _ _ _ _) (flush_all _ _ _ _) => apply par_flush_all
  | |- par (code_act _) (code_act _) => apply par_code
  | |- par (record_reference_line _ _) _ => apply par_record
  | |- par (add_reference _) _ => apply par_use
  | |- par ensure_blank_line ensure_blank_line => apply par_ensure
  | |- par (get cx _) (get cx _) => apply par_cx; intros ? ?
  | |- par (get skip _) (get skip _) => apply par_skip; intro
  | |- par (_ ;; _) (_ ;; _) => apply par_seq
  | |- par (match ?x with _ => _ end) (match ?x with _ => _ end) => destruct x
  | H : par ?a ?b |- par ?a ?b => exact H
  end.
Ltac rt := repeat rs.

Lemma par_blockquote_children : forall k k' i pr f, kpar k k' -> par (blockquote_children i pr f k) (blockquote_children i pr f k').
Proof.
  intros k k' i pr f H. revert f. induction H as [|[n a] [m b] k k' [E R] H IH]; intro f; cbn [blockquote_children fst snd] in *; rt. apply IH.
Qed.
Lemma par_block_quote : forall k k', quotes = true -> kpar k k' -> par (block_quote k) (block_quote k').
Proof.
  intros k k' Q H. unfold block_quote. apply par_cx. intros c C. repeat apply par_seq.
  - apply par_updc. intros d (D1 & D2 & D3). split; [|split]; cbn; [apply hidden_app; [exact D1|apply hidden_quote; exact Q]|exact D3|reflexivity].
  - apply par_blockquote_children. exact H.
  - apply par_updc. intros d D. exact C.
Qed.
Lemma par_alert : forall a pos k k', quotes = true -> kpar k k' -> par (alert a pos k) (alert a pos k').
Proof.
  intros a pos k k' Q H. unfold alert. apply par_cx. intros c C. apply par_seq; [apply par_emit|]. apply par_seq; [|apply par_block_quote; assumption].
  inversion H as [|[n x] [m y] ? ? [E R] ?]; subst; [rt|]. cbn [fst] in E. subst m. rt.
Qed.
Lemma par_list : forall kind tight k k', kpar k k' -> par (list_block kind tight k) (list_block kind tight k').
Proof.
  intros kind tight k k' H. unfold list_block. rewrite (kpar_fst _ _ H). apply par_cx. intros c C. repeat apply par_seq.
  - apply par_updc. intros d D. exact D.
  - apply par_children. exact H.
  - apply par_get_eq; [intros s t A; f_equal; apply A|]. intro d. rt.
  - apply par_updc. intros d D. exact D.
Qed.
Lemma par_item_children : forall base k k' prev, kpar k k' -> par (item_children o B base prev k) (item_children p B base prev k').
Proof.
  intros base k k' prev H. revert prev. induction H as [|[n a] [m b] k k' [E R] H IH]; intro prev; [apply par_nop|]. cbn [fst snd] in *. subst m.
  cbn [item_children]. apply par_seq; [|apply IH]. cbv zeta. rt. 
Qed.
Lemma indent_ok : forall x c, hides x -> okc c -> okc (set_item_indent x c).
Proof. intros x c H (C1 & C2 & C3). repeat split; assumption. Qed.
Lemma par_item : forall task k k', kpar k k' -> par (list_item o B task k) (list_item p B task k').
Proof.
  intros task k k' H. unfold list_item. rewrite (kpar_last _ _ H).
  apply par_seq; [apply par_updc; intros c C; exact C|]. apply par_cx. intros c C. apply par_seq; [apply par_emit|].
  change (item_base_indent p c) with (item_base_indent o c). destruct (item_base_indent o c) as [base|] eqn:E; [|rt]. repeat apply par_seq.
  - apply par_updc. intros d D. apply indent_ok; [eapply item_base_hidden; exact E|exact D].
  - apply par_item_children. exact H.
  - apply par_updc. intros d D. apply indent_ok; [apply C|exact D].
  - rt.
Qed.
Definition says (n : node) : Prop := forall x evs, inline_content U ENT o src n = Ok (x, evs) -> nonws x <> [].
Lemma par_paragraph : forall n, says n -> par (paragraph U ENT o src n) (paragraph U ENT p src n).
Proof.
  intros n Sn. unfold paragraph. cbv zeta. destruct (extract_source src (node_pos n)) as [source|]; [|rt].
  match goal with |- par (match ?x with Some _ => _ | None => _ end) _ => destruct x end; [rt|].
  change (inline_content U ENT p src n) with (inline_content U ENT o src n).
  apply par_inline. intros x evs E. apply par_cx. intros c C. pose proof (Sn x evs E) as N. destruct (list_type c).
  - change (paragraph_continuation p c) with (paragraph_continuation o c). apply par_emit_alike.
    apply wrap_first_alike; [apply continuation_hidden; exact C|]. rewrite nonws_trim. exact N.
  - apply par_emit_alike. apply alike_app; [|apply alike_refl]. apply wrap_alike; [apply quote_hidden; exact C|exact N].
Qed.
Lemma par_heading : forall n level, par (heading U PN ENT o src n level) (heading U PN ENT p src n level).
Proof.
  intros n level. unfold heading. change (collect_text U ENT p src n) with (collect_text U ENT o src n). apply par_inline. intros x evs E.
  change (heading_output U PN p) with (heading_output U PN o). apply par_get_eq; [|intro; apply par_emit].
  intros s t H. rewrite (nr_proper _ _ H), (nr_common _ _ H). reflexivity.
Qed.
Lemma par_details_paragraph : forall quote marker child, hides quote -> says child ->
  par (details_paragraph U ENT o src quote marker child) (details_paragraph U ENT p src quote marker child).
Proof.
  intros quote marker child Q Sn. unfold details_paragraph. apply par_seq; [apply par_emit|].
  change (inline_content U ENT p src child) with (inline_content U ENT o src child). apply par_inline. intros x evs E.
  apply par_emit_alike. apply alike_app; [|apply alike_refl]. apply wrap_first_alike; [apply hidden_app; [exact Q|reflexivity]|].
  rewrite nonws_trim. eapply Sn; exact E.
Qed.
Lemma par_with_item_indent : forall indent a b, hides indent -> par a b -> par (with_item_indent indent a) (with_item_indent indent b).
Proof.
  intros indent a b H R. unfold with_item_indent. apply (par_get _ (fun x y => x = y /\ hides x)).
  - intros s t A. split; [f_equal; apply A|apply (nr_ok _ _ A)].
  - intros x y [<- X]. repeat apply par_seq; [|exact R|]; apply par_updc; intros d D; apply indent_ok; assumption.
Qed.
Definition saying (k : kids) : Prop := Forall (fun x => node_value (fst x) = NParagraph -> says (fst x)) k.
Lemma par_details_children : forall quote k k' first, hides quote -> kpar k k' -> saying k ->
  par (details_children U ENT o B src quote first k) (details_children U ENT p B src quote first k').
Proof.
  intros quote k k' first Q H. revert first. induction H as [|[n a] [m b] k k' [E R] H IH]; intros first Sy; [apply par_nop|]. cbn [fst snd] in *. subst m.
  apply Forall_cons_iff in Sy. destruct Sy as [S1 Sy]. cbn [fst] in S1.
  cbn [details_children]. apply par_seq; [|apply IH; exact Sy].
  destruct first; [|apply par_seq; [apply par_emit|]]; destruct (node_value n) eqn:V; rt;
    first [apply par_with_item_indent; [reflexivity|exact R] | apply par_details_paragraph; [exact Q|apply S1; reflexivity] | apply par_updc; intros d D; exact D].
Qed.
Lemma par_details : forall k k', kpar k k' -> saying k -> par (description_details U ENT o B src k) (description_details U ENT p B src k').
Proof.
  intros k k' H Sy. unfold description_details. apply par_cx. intros c C. repeat apply par_seq; [apply par_updc; intros d D; exact D| |apply par_updc; intros d D; exact D].
  apply par_details_children; [apply quote_hidden; exact C|exact H|exact Sy].
Qed.
Lemma par_description_list : forall k k' first, kpar k k' -> par (description_list first k) (description_list first k').
Proof.
  intros k k' first H. revert first. induction H as [|[n a] [m b] k k' [E R] H IH]; intro first; [apply par_nop|]. cbn [fst snd] in *.
  cbn [description_list]. rt; apply IH.
Qed.
Lemma par_table : forall pos aligns rows, par (table U ENT o src pos aligns rows) (table U ENT p src pos aligns rows).
Proof.
  intros pos aligns rows. change (table U ENT p src pos aligns rows) with (table U ENT o src pos aligns rows).
  unfold table. destruct (is_nil rows); [rt|]. apply par_seq; [apply par_warn|].
  destruct (table_rows U ENT o src rows) as [[x e]|]; [|rt]. apply par_seq; [apply par_events|]. rt.
Qed.
Lemma par_link : forall next n url title k k', kpar k k' -> par (link U ENT o src next n url title k) (link U ENT p src next n url title k').
Proof.
  intros next n url title k k' H. unfold link. cbv zeta. rewrite (kpar_fst _ _ H). pose proof (par_children _ _ H) as C.
  rt; apply par_inline; intros; rt.
Qed.
Lemma par_image : forall n url title, par (image U ENT o src n url title) (image U ENT p src n url title).
Proof. intros n url title. change (image U ENT p src n url title) with (image U ENT o src n url title). unfold image. apply par_inline. intros; rt. Qed.
Lemma par_single : forall a b k k', par a b -> (forall x y, alike x y -> trim_end x = x -> trim_end y = y -> par (k x) (k' y)) -> par (single_block a k) (single_block b k').
Proof.
  intros a b k k' R K. unfold single_block. apply (par_get _ alike); [intros s t H; apply H|]. intros x y X.
  apply par_seq; [apply par_set_output; apply alike_refl|]. apply par_seq; [exact R|].
  apply (par_get _ alike); [intros s t H; apply H|]. intros x' y' X'. apply par_seq; [apply par_set_output; exact X|].
  apply K; [apply alike_trim_end; exact X'|apply trim_end_idem|apply trim_end_idem].
Qed.
Lemma par_footnote_blocks : forall k k' r r' first f f', kpar k k' -> alike r r' ->
  (forall x y, alike x y -> trim_end x = x -> trim_end y = y -> par (f x) (f' y)) ->
  par (footnote_blocks r first k f) (footnote_blocks r' first k' f').
Proof.
  intros k k' r r' first f f' H Ar F. revert r r' first Ar. induction H as [|[n a] [m b] k k' [E R] H IH]; intros r r' first Ar; cbn [footnote_blocks].
  - apply F; [apply alike_trim_end; exact Ar|apply trim_end_idem|apply trim_end_idem].
  - apply par_single; [exact R|]. intros x y A _ _. apply IH. apply alike_app; [exact Ar|]. apply alike_app; [|exact A].
    apply alike_blank; destruct (_ && _); reflexivity.
Qed.
Lemma digest_alike : forall name x y line hb, alike x y -> trim_end x = x -> trim_end y = y -> digest (mkFootnote name x line hb) = digest (mkFootnote name y line hb).
Proof.
  intros name x y line hb [C Wh] X Y. rewrite !trim_end_white, X, Y in Wh. unfold digest. cbn [fn_name fn_content fn_reference_line fn_has_blocks].
  destruct x, y; try discriminate Wh; [reflexivity|]. rewrite C. reflexivity.
Qed.
Lemma par_footnote_definition : forall name cs k k', kpar k k' ->
  par (footnote_definition U ENT o src name cs k) (footnote_definition U ENT p src name cs k').
Proof.
  intros name cs k k' H. unfold footnote_definition. apply par_get_eq.
  - intros s t A. rewrite (nr_lines _ _ A). reflexivity.
  - intro line. cbv zeta. apply par_seq; [apply par_set_collecting|].
    destruct (footnote_has_blocks cs).
    + apply par_footnote_blocks; [exact H|apply alike_refl|]. intros x y A X Y. apply par_seq; [apply par_set_collecting|].
      apply par_add_note. apply digest_alike; assumption.
    + change (collect_inline U ENT p src) with (collect_inline U ENT o src). apply par_inline. intros x evs E.
      apply par_seq; [apply par_set_collecting|apply par_add_note; reflexivity].
Qed.
Lemma par_output_trailing : forall cs first, par (output_trailing first cs) (output_trailing first cs).
Proof. induction cs as [|c cs IH]; intro first; cbn [output_trailing]; [rt|]. destruct (node_value c); rt; apply IH. Qed.
Lemma par_document_block : forall prev child a b, par a b ->
  par (document_block U o src checks prev child a) (document_block U p src checks prev child b).
Proof. intros prev child a b R. unfold document_block. cbv zeta. rt. Qed.
Lemma par_directive : forall prev child literal d, par (directive_act U o checks prev child literal d) (directive_act U p checks prev child literal d).
Proof.
  intros prev child literal d. unfold directive_act. cbv zeta.
  destruct d; rt; apply par_nouns; intros s t H; rewrite ?(nr_proper _ _ H), ?(nr_common _ _ H); reflexivity.
Qed.
Lemma par_disable_file : forall child literal, par (disable_file U o src ends_nl checks child literal) (disable_file U p src ends_nl checks child literal).
Proof. intros. unfold disable_file. rt. Qed.
Lemma par_document_loop : forall k k' ts prev f f', kpar k k' -> par f f' ->
  par (document_loop U o src ends_nl checks ts prev k f) (document_loop U p src ends_nl checks ts prev k' f').
Proof.
  intros k k' ts prev f f' H F. revert ts prev. induction H as [|[n a] [m b] k k' [E R] H IH]; intros ts prev; cbn [document_loop]; [exact F|].
  cbn [fst snd] in *. subst m. cbv zeta. pose proof (IH (ts - 1) (Some n)) as C.
  destruct ((ts =? 0) && is_html_block n); [exact C|]. destruct (is_footnote_def n); [exact C|].
  assert (D : par (document_block U o src checks prev n a ;; document_loop U o src ends_nl checks (ts - 1) (Some n) k f)
                  (document_block U p src checks prev n b ;; document_loop U p src ends_nl checks (ts - 1) (Some n) k' f'))
    by (apply par_seq; [apply par_document_block; exact R|exact C]).
  destruct (node_value n); try exact D. destruct (directive_of n) as [d|]; [|exact D].
  destruct d; try (apply par_seq; [apply par_directive|exact C]). apply par_disable_file.
Qed.
Lemma par_collect_lines : forall n, par (collect_reference_lines n) (collect_reference_lines n).
Proof.
  induction n as [v pos cs IH] using node_ind'. cbn [collect_reference_lines]. apply par_seq; [destruct v; rt|].
  apply par_all. apply forall2_map. exact IH.
Qed.
Lemma par_document : forall n k k', kpar k k' -> par (document U o src ends_nl checks n k) (document U p src ends_nl checks n k').
Proof.
  intros n k k' H. unfold document. cbv zeta. rewrite (kpar_fst _ _ H). destruct (check_undefined checks src n) as [ws|]; [|rt].
  apply par_seq; [apply par_warn|]. apply par_seq; [apply par_collect_lines|]. apply par_seq.
  - apply par_all. induction H as [|[m a] [m' b] k k' [E R] H IH]; cbn [map fst snd] in *; constructor; [|exact IH]. subst m'. rt.
  - apply par_document_loop; [exact H|]. apply par_seq; [apply par_flush_all|apply par_output_trailing].
Qed.
Lemma kpar_next : forall (f g : option node -> node -> act) cs, Forall (fun c => forall nx, par (f nx c) (g nx c)) cs ->
  kpar (combine cs (with_next f cs)) (combine cs (with_next g cs)).
Proof. intros f g cs H. induction H; cbn [with_next combine]; constructor; cbn; auto. Qed.

Theorem par_serialize : forall n next, (has_quotes n -> quotes = true) -> speaks U ENT o src n ->
  par (serialize U PN ENT o B src ends_nl checks next n) (serialize U PN ENT p B src ends_nl checks next n).
Proof.
  induction n as [v pos cs IH] using node_ind'. intros next Q Sp.
  assert (K : kpar (combine cs (with_next (serialize U PN ENT o B src ends_nl checks) cs)) (combine cs (with_next (serialize U PN ENT p B src ends_nl checks) cs))).
  { apply kpar_next. rewrite Forall_forall in *. intros c Ic nx. destruct (below v pos cs c Ic) as (X & _ & _). apply (IH c Ic).
    - intro H. apply Q, X, H.
    - intros m x evs W V E. eapply Sp; [eapply within_below; [exact Ic|exact W]|exact V|exact E]. }
  assert (QH : (v = NBlockQuote \/ exists a, v = NAlert a) -> quotes = true).
  { intro H. apply Q. exists (Node v pos cs). split; [apply within_here|exact H]. }
  assert (Sy : saying (combine cs (with_next (serialize U PN ENT o B src ends_nl checks) cs))).
  { apply Forall_forall. intros [c a] Ic. apply in_combine_l in Ic. cbn [fst]. intros V x evs E.
    eapply Sp; [eapply within_below; [exact Ic|apply within_here]|exact V|exact E]. }
  cbn [serialize]. cbv zeta.
  destruct v;
    first [ apply par_document; exact K | apply par_block_quote; [apply QH; left; reflexivity|exact K] | apply par_list; exact K
          | apply par_item; exact K | apply par_description_list; exact K | apply par_details; [exact K|exact Sy]
          | apply par_paragraph; intros x evs E; eapply Sp; [apply within_here|reflexivity|exact E] | apply par_heading | apply par_footnote_definition; exact K
          | apply par_table | apply par_link; exact K | apply par_image | apply par_alert; [apply QH; right; eexists; reflexivity|exact K] | apply par_children; exact K
          | idtac ]; unfold thematic_break; rt; first [apply par_children; exact K|apply par_emit].
Qed.
Lemma near_init : near init_st init_st.
Proof. constructor; try reflexivity; [apply alike_refl|repeat split]. Qed.
End Width.
