(** The code written stands in the output. *)
From Coq Require Import Bool Arith NArith Lia ZifyBool ZifyNat ZifyN String List.
From Verif Require Import Base BaseFacts EscapeModel OptsModel PunctModel WrapModel SpecWrap WrapProof PropsWrap CodeModel TableModel HeadingModel
  AstModel StateModel InlineModel WarnModel SerModel SpecContext CodeProof StateProof SerFacts ContextProof DocProof SpecSame SameProof.
Import ListNotations.

Lemma laced_l : forall l x g, laced l x -> laced l (g ++ x).
Proof. intros l x g H. destruct H; [constructor|]. rewrite app_assoc. constructor. assumption. Qed.
Lemma laced_r : forall l x g, laced l x -> laced l (x ++ g).
Proof. intros l x g H. induction H; [constructor|]. rewrite <- !app_assoc. constructor. assumption. Qed.
Lemma laced_app : forall a x b y, laced a x -> laced b y -> laced (a ++ b) (x ++ y).
Proof.
  intros a x b y H K. induction H; [apply laced_l; exact K|]. rewrite <- !app_assoc. cbn [app]. constructor. assumption.
Qed.
Lemma laced_self : forall x, laced [x] x.
Proof. intro x. rewrite <- (app_nil_l x) at 2. rewrite <- (app_nil_r x) at 2. constructor. constructor. Qed.

Section Carry.
Variable quotes tables : bool.
Local Notation mark := (layout_mark quotes tables).
Local Notation core := (bare mark).

Lemma core_app : forall a b, core (a ++ b) = core a ++ core b.
Proof. intros. apply filter_app. Qed.
Lemma mark_ws : forall c, is_ws c = true -> mark c = true.
Proof. intros c H. unfold layout_mark. rewrite H. reflexivity. Qed.
Lemma mark_nul : mark c_nul = true.
Proof. reflexivity. Qed.
Definition hidden (s : str) : Prop := core s = [].
Lemma hidden_app : forall a b, hidden a -> hidden b -> hidden (a ++ b).
Proof. intros a b A B. unfold hidden. rewrite core_app, A, B. reflexivity. Qed.
Lemma hidden_ws : forall s, Forall (fun c => is_ws c = true) s -> hidden s.
Proof. intros s H. induction H; [reflexivity|]. unfold hidden, bare. cbn [filter]. rewrite mark_ws by assumption. exact IHForall. Qed.
Lemma hidden_spaces : forall n, hidden (spaces n).
Proof. intro n. apply hidden_ws. unfold spaces, repc. apply Forall_forall. intros c I. apply repeat_spec in I. subst. reflexivity. Qed.
Lemma core_nonws : forall s, core (nonws s) = core s.
Proof.
  induction s as [|c s IH]; [reflexivity|]. unfold nonws. cbn [filter]. fold (nonws s). unfold bare in *.
  destruct (is_ws c || ceq c soft) eqn:W; cbn [negb filter].
  - replace (mark c) with true; [exact IH|]. symmetry. unfold layout_mark. unfold ceq, soft in W. rewrite W. reflexivity.
  - rewrite IH. reflexivity.
Qed.
Lemma core_trim : forall s, core (trim s) = core s.
Proof. intro s. rewrite <- core_nonws, nonws_trim, core_nonws. reflexivity. Qed.
Lemma core_trim_end : forall s, core (trim_end s) = core s.
Proof.
  intro s. destruct (trim_end_app s) as (w & E & W). rewrite E at 2. rewrite core_app, (hidden_ws w W), app_nil_r. reflexivity.
Qed.

(** ** Wrapping *)
Lemma core_join : forall sep ls, hidden sep -> core (join sep ls) = List.concat (map core ls).
Proof.
  intros sep ls H. induction ls as [|l ls IH]; [reflexivity|]. destruct ls as [|l' ls]; [cbn; rewrite app_nil_r; reflexivity|].
  change (join sep (l :: l' :: ls)) with (l ++ sep ++ join sep (l' :: ls)). rewrite !core_app, H, IH. reflexivity.
Qed.
Lemma core_line : forall x : wline, hidden (wl_p x) -> shows (wl_p x) (wl_b x) (wl_t x) -> core (wl_t x) = core (wl_b x).
Proof.
  intros x H (w & B & E). apply (f_equal core) in E. rewrite !core_app, H, (hidden_ws w B), app_nil_r in E. symmetry. exact E.
Qed.
Lemma core_piece : forall (ok : str -> Prop) s L, (forall p, ok p -> hidden p) -> lays_out ok s L -> core (render_piece (map wl_t L)) = core s.
Proof.
  intros ok s L H (_ & F & E & _). unfold render_piece. rewrite core_join by (apply hidden_ws; repeat constructor).
  rewrite <- (core_nonws s), <- E, core_nonws. clear E. induction F as [|x L [P S] F IH]; [reflexivity|].
  cbn [map List.concat]. rewrite core_app, IH, core_line; auto.
Qed.
Lemma core_segments : forall t, core t = List.concat (map core (segments t)).
Proof. intro t. rewrite <- core_join with (sep := [c_nl]) by (apply hidden_ws; repeat constructor). unfold segments. rewrite join_split_on. reflexivity. Qed.
Lemma core_wrap : forall U t p lw, hidden p -> core (wrap_text U t p lw) = core t.
Proof.
  intros U t p lw H. destruct (C06_C07_wrap_text U t p lw) as (Ls & -> & F & _). rewrite (core_segments t). unfold render_text.
  rewrite core_join by (apply hidden_ws; repeat constructor).
  induction F as [|s L ss Ls L1 F IH]; [reflexivity|]. cbn [map List.concat]. rewrite IH. f_equal. eapply core_piece; [|exact L1].
  intros x <-. exact H.
Qed.
Lemma core_wrap_first : forall U t fp cp lw, hidden fp -> hidden cp -> core (wrap_text_first_line U t fp cp lw) = core t.
Proof.
  intros U t fp cp lw H K. destruct (C06_C07_wrap_text_first_line_partial U t fp cp lw) as (L & Ls & s & ss & E & -> & L1 & F & _).
  rewrite (core_segments t), E. unfold render_text.
  rewrite core_join by (apply hidden_ws; repeat constructor). cbn [map List.concat]. f_equal.
  - eapply core_piece; [|exact L1]. intros x [-> | ->]; assumption.
  - clear E. induction F as [|s' L' ss Ls L2 F IH]; [reflexivity|]. cbn [map List.concat]. rewrite IH. f_equal. eapply core_piece; [|exact L2].
    intros x [-> | ->]; [exact K|apply hidden_app; exact K].
Qed.

(** ** Collected text *)
Local Notation hold := (carries quotes tables).
Definition wcarry (w : W) : Prop := forall x evs, w = Ok (x, evs) -> hold (span_codes evs) x.
Lemma hold_nil : forall x, hold [] x.
Proof. intro x. constructor. Qed.
Lemma hold_app : forall a x b y, hold a x -> hold b y -> hold (a ++ b) (x ++ y).
Proof. intros a x b y A B. unfold carries in *. rewrite map_app, core_app. apply laced_app; assumption. Qed.
Lemma hold_in : forall l x g h y, hold l x -> core y = g ++ core x ++ h -> hold l y.
Proof. intros l x g h y H E. unfold carries in *. rewrite E. apply laced_l, laced_r. exact H. Qed.
Lemma hold_same : forall l x y, hold l x -> core y = core x -> hold l y.
Proof. intros l x y H E. unfold carries in *. rewrite E. exact H. Qed.
Lemma hold_self : forall x, hold [x] x.
Proof. intro x. apply laced_self. Qed.
Lemma wcarry_ret : forall x, wcarry (wret x).
Proof. intros x y evs E. injection E as <- <-. apply hold_nil. Qed.
Lemma wcarry_use : forall x l u t, wcarry (wuse x l u t).
Proof. intros x l u t y evs E. injection E as <- <-. apply hold_nil. Qed.
Lemma wcarry_app : forall a b, wcarry a -> wcarry b -> wcarry (wapp a b).
Proof.
  intros [[x e]|] [[y f]|] A B z evs E; try discriminate. injection E as <- <-. rewrite span_codes_app. apply hold_app; [apply A|apply B]; reflexivity.
Qed.
Lemma wcarry_rbind : forall A (r : res A) f, (forall x, wcarry (f x)) -> wcarry (rbind r f).
Proof. intros A [x|] f H; [apply H|]. intros y evs E. discriminate. Qed.
Lemma wcarry_cat : forall l, Forall wcarry l -> wcarry (wcat l).
Proof. intros l H. induction H; [apply wcarry_ret|]. apply wcarry_app; assumption. Qed.
(** The text is put into a larger one. *)
Lemma wcarry_bind : forall a f, wcarry a ->
  (forall x y evs, f x = Ok (y, evs) -> span_codes evs = [] /\ exists g h, core y = g ++ core x ++ h) -> wcarry (wbind a f).
Proof.
  intros [[x e]|] f A F z evs E; [|discriminate]. unfold wbind in E. cbn [rbind fst snd] in E.
  destruct (f x) as [[y k]|] eqn:Fx; [|discriminate]. injection E as <- <-. destruct (F x y k Fx) as (N & g & h & C).
  rewrite span_codes_app, N, app_nil_r. eapply hold_in; [apply A; reflexivity|exact C].
Qed.
Lemma wcarry_none : forall w, (forall x evs, w = Ok (x, evs) -> span_codes evs = []) -> wcarry w.
Proof. intros w H x evs E. rewrite (H x evs E). apply hold_nil. Qed.

Section Run.
Variable U : Uni.
Variable PN : list (str * str).
Variable ENT : str -> option str.
Variable o : Options.
Variable B : backend.
Variable src : list str.
Variable ends_nl : bool.
Variable checks : bool.
Hypothesis plain : heading_sentence_case o = false.

Lemma wcarry_text : forall pos t, wcarry (inline_text U ENT o src pos t).
Proof. intros pos t. apply wcarry_rbind. intros [x|]; apply wcarry_ret. Qed.
Lemma wcarry_code : forall pos t, wcarry (inline_code src pos t).
Proof. intros pos t. apply wcarry_rbind. intros x y evs E. injection E as <- <-. apply hold_self. Qed.
Lemma wcarry_reference : forall op text label url title, wcarry (format_reference op text label url title).
Proof. intros. unfold format_reference. destruct (strip_prefix _ _); [|destruct (seqb _ _)]; apply wcarry_use. Qed.
Lemma core_nul : forall s, core (replace_char c_nul [c_sp] s) = core s.
Proof.
  induction s as [|c s IH]; [reflexivity|]. unfold replace_char in *. cbn [flat_map]. rewrite core_app, IH.
  change (c :: s) with ([c] ++ s). rewrite core_app. destruct (ceq_spec c c_nul) as [->|]; reflexivity.
Qed.
Lemma external_in : forall x url title coll y evs, format_external_link x url title coll = Ok (y, evs) ->
  span_codes evs = [] /\ exists g h, core y = g ++ core x ++ h.
Proof.
  intros x url title coll y evs E. unfold format_external_link, wuse in E. cbv zeta in E.
  pose proof (f_equal (fun r => match r with Ok z => fst z | Panic => [] end) E) as Y. cbn [fst] in Y.
  injection E as _ <-. split; [reflexivity|]. exists (core [c_lbr]). eexists.
  rewrite <- Y, (core_app [c_lbr]), (core_app (replace_char _ _ _)), core_nul. reflexivity.
Qed.
Lemma inline_link_in : forall x url title y evs, wret (format_inline_link x url title) = Ok (y, evs) ->
  span_codes evs = [] /\ exists g h, core y = g ++ core x ++ h.
Proof.
  intros x url title y evs E. injection E as <- <-. split; [reflexivity|]. exists (core [c_lbr]). eexists.
  unfold format_inline_link. rewrite (core_app [c_lbr]), (core_app x). reflexivity.
Qed.
Lemma inline_image_in : forall x url title y evs, wret (format_inline_image x url title) = Ok (y, evs) ->
  span_codes evs = [] /\ exists g h, core y = g ++ core x ++ h.
Proof.
  intros x url title y evs E. injection E as <- <-. split; [reflexivity|]. exists (core [c_bang; c_lbr]). eexists.
  unfold format_inline_image. rewrite (core_app [c_bang; c_lbr]), (core_app x). reflexivity.
Qed.
Lemma wcarry_collect_text : forall n, wcarry (collect_text U ENT o src n).
Proof.
  induction n as [v p cs IH] using node_ind'.
  assert (K : wcarry (wcat (map (collect_text U ENT o src) cs))) by (apply wcarry_cat; apply Forall_map; exact IH).
  cbn [collect_text]. destruct v; try exact K; try apply wcarry_ret; try apply wcarry_text; try apply wcarry_code.
  - apply wcarry_rbind. intro d. repeat apply wcarry_app; try apply wcarry_ret. exact K.
  - apply wcarry_rbind. intro d. repeat apply wcarry_app; try apply wcarry_ret. exact K.
  - apply wcarry_rbind. intros [[t l]|]; [apply wcarry_reference|]. destruct (is_external_url url); [apply wcarry_use|apply wcarry_ret].
Qed.
Lemma wcarry_collect_inline : forall n next, wcarry (collect_inline U ENT o src next n).
Proof.
  induction n as [v p cs IH] using node_ind'. intro next.
  assert (K : wcarry (wcat (with_next (collect_inline U ENT o src) cs))).
  { apply wcarry_cat. clear next. induction IH; cbn [with_next]; constructor; auto. }
  cbn [collect_inline]. cbv zeta. destruct v; try exact K; try apply wcarry_ret; try apply wcarry_text; try apply wcarry_code.
  - apply wcarry_rbind. intro d. repeat apply wcarry_app; try apply wcarry_ret. exact K.
  - apply wcarry_rbind. intro d. repeat apply wcarry_app; try apply wcarry_ret. exact K.
  - apply wcarry_rbind. intros [[t l]|].
    + destruct (existsb is_image cs); [|apply wcarry_reference]. repeat apply wcarry_app; [apply wcarry_ret|exact K|apply wcarry_use].
    + destruct (existsb is_image cs); [repeat apply wcarry_app; [apply wcarry_ret|exact K|apply wcarry_ret]|].
      destruct (_ && _); [apply wcarry_ret|]. destruct (is_external_url url); (apply wcarry_bind; [exact K|]); intros x y evs E;
        [eapply external_in; exact E|eapply inline_link_in; exact E].
  - apply wcarry_rbind. intros [[t l]|]; [apply wcarry_reference|]. apply wcarry_bind; [exact K|]. intros x y evs E. eapply inline_image_in; exact E.
Qed.
Lemma wcarry_collect_all : forall cs, wcarry (wcat (with_next (collect_inline U ENT o src) cs)).
Proof.
  intro cs. apply wcarry_cat. induction cs as [|c cs IH]; cbn [with_next]; constructor; [apply wcarry_collect_inline|exact IH].
Qed.
Lemma wcarry_content : forall n, wcarry (inline_content U ENT o src n).
Proof. intro n. apply wcarry_collect_all. Qed.

(** ** Actions *)
Definition ctx_ok (c : ctx) : Prop :=
  hidden (blockquote_prefix c) /\ hidden (blockquote_outer_indent c) /\ hidden (list_item_indent c).
Definition adds (s s' : st) (x : str) (l : list str) : Prop :=
  output s' = output s ++ x /\ codes (trace s') = codes (trace s) ++ l /\ hold l x.
Definition carry (a : act) : Prop := forall s s', ctx_ok (cx s) -> a s = Ok s' -> ctx_ok (cx s') /\ exists x l, adds s s' x l.
Lemma carry_nop : carry nop.
Proof. intros s s' C E. injection E as <-. split; [exact C|]. exists [], []. unfold adds. rewrite !app_nil_r. repeat split. constructor. Qed.
Lemma carry_panic : carry panic.
Proof. intros s s' C E. discriminate. Qed.
Lemma carry_seq : forall a b, carry a -> carry b -> carry (a ;; b).
Proof.
  intros a b A Bc s s' C E. unfold seqa in E. destruct (a s) as [m|] eqn:Ea; [|discriminate]. cbn [rbind] in E.
  destruct (A s m C Ea) as (C1 & x & l & O1 & T1 & H1). destruct (Bc m s' C1 E) as (C2 & y & k & O2 & T2 & H2).
  split; [exact C2|]. exists (x ++ y), (l ++ k). unfold adds. rewrite O2, O1, T2, T1, !app_assoc. repeat split. apply hold_app; assumption.
Qed.
Lemma carry_all : forall l, Forall carry l -> carry (all l).
Proof. intros l H. induction H; cbn [all fold_right]; [apply carry_nop|apply carry_seq; assumption]. Qed.
Lemma carry_get : forall A (f : st -> A) k, (forall x, carry (k x)) -> carry (get f k).
Proof. intros A f k K s s'. apply K. Qed.
Lemma carry_get_if : forall A (P : A -> Prop) (f : st -> A) k, (forall s, ctx_ok (cx s) -> P (f s)) -> (forall x, P x -> carry (k x)) -> carry (get f k).
Proof. intros A P f k F K s s' C. apply K; [apply F; exact C|exact C]. Qed.
Lemma carry_cx : forall k, (forall c, ctx_ok c -> carry (k c)) -> carry (get cx k).
Proof. intros k K. apply (carry_get_if _ ctx_ok); auto. Qed.
Lemma carry_emit : forall x, carry (emit x).
Proof.
  intros x s s' C E. injection E as <-. split; [exact C|]. exists x, []. unfold adds. cbn. rewrite app_nil_r. repeat split. constructor.
Qed.
Lemma carry_updc : forall f, (forall c, ctx_ok c -> ctx_ok (f c)) -> carry (updc f).
Proof. intros f F s s' C E. injection E as <-. split; [apply F; exact C|]. exists [], []. unfold adds. cbn. rewrite !app_nil_r. repeat split. constructor. Qed.
(** Nothing written, no code. *)
Lemma carry_upd : forall f, (forall s, output (f s) = output s /\ cx (f s) = cx s /\ codes (trace (f s)) = codes (trace s)) -> carry (upd f).
Proof.
  intros f F s s' C E. injection E as <-. destruct (F s) as (O1 & X & T). rewrite X. split; [exact C|].
  exists [], []. unfold adds. rewrite O1, T, !app_nil_r. repeat split. constructor.
Qed.
Lemma carry_ensure : carry ensure_blank_line.
Proof. apply carry_get. intro x. destruct (ends_with _ x); [apply carry_nop|]. destruct (ends_with _ x); apply carry_emit. Qed.
Lemma carry_write_reference : forall r, carry (write_reference r).
Proof.
  intro r. unfold write_reference. repeat apply carry_seq; [|apply carry_emit|]; apply carry_upd; intro s; repeat split.
  cbn. rewrite codes_app. apply app_nil_r.
Qed.
Lemma carry_write_footnote : forall f, carry (write_footnote U o checks f).
Proof.
  intro f. unfold write_footnote. destruct (footnote_text U o checks f); [|apply carry_panic].
  repeat apply carry_seq; [|apply carry_emit|]; apply carry_upd; intro s; repeat split. cbn. rewrite codes_app. apply app_nil_r.
Qed.
Lemma carry_flush_references : carry flush_references.
Proof.
  unfold flush_references. apply carry_get. intro p. destruct (is_nil p); [apply carry_nop|]. apply carry_get. intro em. cbv zeta.
  apply carry_seq; [apply carry_upd; repeat split|]. destruct (is_nil _); [apply carry_nop|]. apply carry_seq; [apply carry_ensure|].
  apply carry_all. apply Forall_map. apply Forall_forall. intros r _. apply carry_write_reference.
Qed.
Lemma carry_flush_notes : forall l, carry (flush_footnotes_before U o checks l).
Proof.
  intro l. unfold flush_footnotes_before. apply carry_get. intro f. destruct (is_nil _); [apply carry_nop|]. cbv zeta.
  apply carry_seq; [apply carry_upd; repeat split|]. destruct (is_nil _); [apply carry_nop|]. apply carry_seq; [apply carry_ensure|].
  apply carry_all. apply Forall_map. apply Forall_forall. intros r _. apply carry_write_footnote.
Qed.
Lemma carry_flush_note_refs : forall l, carry (flush_footnote_references_before l).
Proof.
  intro l. unfold flush_footnote_references_before. apply carry_get. intro f. destruct (is_nil _); [apply carry_nop|]. apply carry_get. intro em. cbv zeta.
  apply carry_seq; [apply carry_upd; repeat split|]. destruct (is_nil _); [apply carry_nop|]. apply carry_seq; [apply carry_ensure|].
  apply carry_all. apply Forall_map. apply Forall_forall. intros r _. apply carry_write_reference.
Qed.
Lemma carry_flush_all : forall l, carry (flush_all U o checks l).
Proof. intro l. unfold flush_all. repeat apply carry_seq; [apply carry_flush_notes|apply carry_flush_references|apply carry_flush_note_refs]. Qed.
Lemma carry_use : forall r, carry (add_reference r).
Proof.
  intro r. unfold add_reference. apply carry_upd. intro s. cbv zeta. destruct (f_collecting (footnotes s)); cbn; rewrite codes_app; cbn;
    rewrite app_nil_r; repeat split.
Qed.
Lemma carry_record : forall n l, carry (record_reference_line n l).
Proof. intros n l. apply carry_upd. intro s. cbv zeta. destruct (assoc_str _ _); repeat split. Qed.
Lemma carry_warn : forall f, carry (upd (fun s => set_warnings (f s) s)).
Proof. intro f. apply carry_upd. repeat split. Qed.
Lemma carry_set_skip : forall m, carry (upd (set_skip m)).
Proof. intro m. apply carry_upd. repeat split. Qed.

(** An action that writes a given text. *)
Definition puts (x : str) (a : act) : Prop := forall s s', ctx_ok (cx s) -> a s = Ok s' ->
  ctx_ok (cx s') /\ codes (trace s') = codes (trace s) /\ exists y g h, output s' = output s ++ y /\ core y = g ++ core x ++ h.
Lemma carry_events : forall evs x a, hold (span_codes evs) x -> puts x a -> carry (all (map do_event evs) ;; a).
Proof.
  intros evs x a H P s s' C E. unfold seqa in E. destruct (events_trace evs s) as (m & Em & T & Cx & _). rewrite Em in E. cbn [rbind] in E.
  rewrite <- Cx in C. destruct (P m s' C E) as (C' & T' & y & g & h & O' & K). split; [exact C'|]. exists y, (span_codes evs).
  unfold adds. rewrite T', T, O', (events_output _ _ _ Em). repeat split. eapply hold_in; eassumption.
Qed.
Lemma carry_inline : forall w k, wcarry w -> (forall x, puts x (k x)) -> carry (inline w k).
Proof.
  intros [[x e]|] k Wc K; cbn [inline]; [|apply carry_panic]. eapply carry_events; [apply Wc; reflexivity|apply K].
Qed.
Lemma puts_emit : forall x y g h, core y = g ++ core x ++ h -> puts x (emit y).
Proof. intros x y g h E s s' C Em. injection Em as <-. split; [exact C|]. split; [reflexivity|]. exists y, g, h. split; [reflexivity|exact E]. Qed.
Lemma puts_same : forall x y, core y = core x -> puts x (emit y).
Proof. intros x y E. apply (puts_emit x y [] []). rewrite app_nil_r. exact E. Qed.
Lemma puts_cx : forall x k, (forall c, ctx_ok c -> puts x (k c)) -> puts x (get cx k).
Proof. intros x k K s s' C. apply K; exact C. Qed.
Lemma carry_code : forall f, carry (code_act f).
Proof.
  intros f s s' C E. unfold code_act, get in E. destruct (f (List.length (calls s))) as [text eff]. injection E as <-.
  split; [exact C|]. exists text, [text]. unfold adds. cbn. rewrite codes_app. repeat split. apply hold_self.
Qed.
Lemma carry_log : forall x, carry (log (Code x) ;; emit x).
Proof. intros x s s' C E. injection E as <-. split; [exact C|]. exists x, [x]. unfold adds. cbn. rewrite codes_app. repeat split. apply hold_self. Qed.

Ltac cs :=
  lazymatch goal with
  | |- carry nop => apply carry_nop
  | |- carry panic => apply carry_panic
  | |- carry (emit _) => apply carry_emit
  | |- carry (upd (set_skip _)) => apply carry_set_skip
  | |- carry (flush_all _ _ _ _) => apply carry_flush_all
  | |- carry (code_act _) => apply carry_code
  | |- carry (record_reference_line _ _) => apply carry_record
  | |- carry (add_reference _) => apply carry_use
  | |- carry ensure_blank_line => apply carry_ensure
  | |- carry (log (Code ?x) ;; emit ?x) => apply carry_log
  | |- carry (get cx _) => apply carry_cx; intros ? ?
  | |- carry (get skip _) => apply carry_get; intro
  | |- carry (_ ;; _) => apply carry_seq
  | |- carry (match ?x with _ => _ end) => destruct x
  | H : carry ?a |- carry ?a => exact H
  end.
Ltac ct := repeat cs.

Definition kcarry (k : kids) : Prop := Forall (fun x => carry (snd x)) k.
Lemma carry_children : forall k, kcarry k -> carry (children_acts k).
Proof. intros k H. apply carry_all. apply Forall_map. exact H. Qed.
Lemma carry_blockquote_children : forall k i pr f, kcarry k -> carry (blockquote_children i pr f k).
Proof. intros k i pr f H. revert f. induction H as [|[n a] k R H IH]; intro f; cbn [blockquote_children snd] in *; ct; apply IH. Qed.
Lemma hidden_quote : quotes = true -> hidden (lit "> ").
Proof. intro Q. unfold hidden. rewrite Q. reflexivity. Qed.
Lemma carry_block_quote : forall k, quotes = true -> kcarry k -> carry (block_quote k).
Proof.
  intros k Q H. unfold block_quote. apply carry_cx. intros c C. repeat apply carry_seq.
  - apply carry_updc. intros d (D1 & D2 & D3). split; [|split]; cbn; [apply hidden_app; [exact D1|apply hidden_quote; exact Q]|exact D3|reflexivity].
  - apply carry_blockquote_children. exact H.
  - apply carry_updc. intros d D. exact C.
Qed.
Lemma carry_alert : forall a pos k, quotes = true -> kcarry k -> carry (alert a pos k).
Proof.
  intros a pos k Q H. unfold alert. apply carry_cx. intros c C. apply carry_seq; [apply carry_emit|]. apply carry_seq; [ct|]. apply carry_block_quote; assumption.
Qed.
Lemma carry_list : forall kind tight k, kcarry k -> carry (list_block kind tight k).
Proof.
  intros kind tight k H. unfold list_block. apply carry_cx. intros c C. repeat apply carry_seq.
  - apply carry_updc. intros d D. exact D.
  - apply carry_children. exact H.
  - apply carry_get. intro d. ct.
  - apply carry_updc. intros d D. exact D.
Qed.
Lemma carry_item_children : forall base k prev, kcarry k -> carry (item_children o B base prev k).
Proof.
  intros base k prev H. revert prev. induction H as [|[n a] k R H IH]; intro prev; [apply carry_nop|]. cbn [snd] in R.
  cbn [item_children]. apply carry_seq; [|apply IH]. cbv zeta. ct.
Qed.
Lemma item_base_hidden : forall c base, item_base_indent o c = Ok base -> hidden base.
Proof.
  intros c base E. unfold item_base_indent in E. cbv zeta in E. destruct (in_description_details c).
  - destruct (list_depth c =? 0); [discriminate|]. injection E as <-. apply hidden_app; apply hidden_spaces.
  - destruct (1 <? list_depth c); injection E as <-; [apply hidden_app|]; apply hidden_spaces.
Qed.
Lemma set_indent_ok : forall x c, hidden x -> ctx_ok c -> ctx_ok (set_item_indent x c).
Proof. intros x c H (C1 & C2 & C3). repeat split; assumption. Qed.
Lemma carry_item : forall task k, kcarry k -> carry (list_item o B task k).
Proof.
  intros task k H. unfold list_item. apply carry_seq; [apply carry_updc; intros c C; exact C|]. apply carry_cx. intros c C.
  apply carry_seq; [apply carry_emit|]. destruct (item_base_indent o c) as [base|] eqn:E; [|apply carry_panic].
  repeat apply carry_seq.
  - apply carry_updc. intros d D. apply set_indent_ok; [eapply item_base_hidden; exact E|exact D].
  - apply carry_item_children. exact H.
  - apply carry_updc. intros d D. apply set_indent_ok; [apply C|exact D].
  - ct.
Qed.
Lemma hidden_repeat : forall n, hidden (List.concat (repeat (lit "    ") n)).
Proof. induction n as [|n IH]; [reflexivity|]. cbn [repeat List.concat]. apply hidden_app; [reflexivity|exact IH]. Qed.
Lemma continuation_hidden : forall c, ctx_ok c -> hidden (paragraph_continuation o c).
Proof.
  intros c (C1 & C2 & C3). unfold paragraph_continuation. cbv zeta.
  match goal with |- hidden (if _ then _ ++ _ ++ ?b else _) => assert (K : hidden b) end.
  { destruct (_ && _); [|apply hidden_repeat]. apply hidden_app; [reflexivity|]. apply hidden_app; [apply hidden_spaces|apply hidden_repeat]. }
  destruct (in_block_quote c); [|exact K]. apply hidden_app; [exact C2|]. apply hidden_app; [exact C1|exact K].
Qed.
Lemma quote_hidden : forall c, ctx_ok c -> hidden (if in_block_quote c then blockquote_outer_indent c ++ blockquote_prefix c else []).
Proof. intros c (C1 & C2 & C3). destruct (in_block_quote c); [|reflexivity]. apply hidden_app; assumption. Qed.
Lemma carry_paragraph : forall n, carry (paragraph U ENT o src n).
Proof.
  intro n. unfold paragraph. cbv zeta. destruct (extract_source src (node_pos n)) as [source|]; [|ct].
  match goal with |- carry (match ?x with Some _ => _ | None => _ end) => destruct x end; [ct|].
  apply carry_inline; [apply wcarry_content|]. intro x. apply puts_cx. intros c C. destruct (list_type c).
  - apply puts_same. rewrite core_wrap_first; [apply core_trim|reflexivity|apply continuation_hidden; exact C].
  - apply puts_same. rewrite core_app, core_wrap by (apply quote_hidden; exact C). apply app_nil_r.
Qed.
Lemma carry_heading : forall n level, carry (heading U PN ENT o src n level).
Proof.
  intros n level. apply carry_inline; [apply wcarry_collect_text|]. intros x s s' C E. unfold get, heading_output in E. rewrite plain in E. cbv zeta in E.
  destruct (_ && _); [|destruct (_ && _)]; injection E as <-; (split; [exact C|]; split; [reflexivity|]); cbn [output set_output].
  - eexists. exists []. eexists. split; [reflexivity|]. rewrite core_app. reflexivity.
  - eexists. exists []. eexists. split; [reflexivity|]. rewrite core_app. reflexivity.
  - exists ((repc c_hash level ++ [c_sp]) ++ x ++ [c_nl]), (core (repc c_hash level ++ [c_sp])). eexists.
    split; [rewrite <- !app_assoc; reflexivity|]. rewrite (core_app (_ ++ _)), (core_app x). reflexivity.
Qed.
Lemma carry_details_paragraph : forall quote marker child, hidden quote -> carry (details_paragraph U ENT o src quote marker child).
Proof.
  intros quote marker child H. unfold details_paragraph. apply carry_seq; [apply carry_emit|]. apply carry_inline; [apply wcarry_content|].
  intro x. apply puts_same. rewrite core_app, core_wrap_first; [rewrite core_trim; apply app_nil_r|reflexivity|apply hidden_app; [exact H|reflexivity]].
Qed.
Lemma carry_with_item_indent : forall indent a, hidden indent -> carry a -> carry (with_item_indent indent a).
Proof.
  intros indent a H A. unfold with_item_indent. apply (carry_get_if _ hidden); [intros s C; apply C|]. intros x X.
  repeat apply carry_seq; [|exact A|]; apply carry_updc; intros d D; apply set_indent_ok; assumption.
Qed.
Lemma carry_details_children : forall quote k first, hidden quote -> kcarry k -> carry (details_children U ENT o B src quote first k).
Proof.
  intros quote k first Q H. revert first. induction H as [|[n a] k R H IH]; intro first; [apply carry_nop|]. cbn [snd] in R.
  cbn [details_children]. apply carry_seq; [|apply IH].
  ct; first [apply carry_with_item_indent; [reflexivity|exact R] | apply carry_details_paragraph; exact Q | apply carry_updc; intros d D; exact D].
Qed.
Lemma carry_details : forall k, kcarry k -> carry (description_details U ENT o B src k).
Proof.
  intros k H. unfold description_details. apply carry_cx. intros c C. repeat apply carry_seq; [apply carry_updc; intros d D; exact D| |apply carry_updc; intros d D; exact D].
  apply carry_details_children; [apply quote_hidden; exact C|exact H].
Qed.
Lemma carry_description_list : forall k first, kcarry k -> carry (description_list first k).
Proof. intros k first H. revert first. induction H as [|[n a] k R H IH]; intro first; [apply carry_nop|]. cbn [snd] in R. cbn [description_list]. ct; apply IH. Qed.
Lemma carry_link : forall next n url title k, kcarry k -> carry (link U ENT o src next n url title k).
Proof.
  intros next n url title k H. unfold link. cbv zeta. pose proof (carry_children _ H) as Ck.
  ct; (apply carry_inline; [|intro; apply puts_same; reflexivity]).
  - apply wcarry_reference.
  - apply wcarry_bind; [apply wcarry_collect_text|]. intros x y evs E. eapply external_in; exact E.
  - apply wcarry_bind; [apply wcarry_collect_text|]. intros x y evs E. eapply inline_link_in; exact E.
Qed.
Lemma unwritten_none : forall l, span_codes (filter (fun e => match e with EvCode _ => false | EvUse _ => true end) l) = [].
Proof. induction l as [|[] l IH]; [reflexivity|exact IH|exact IH]. Qed.
Lemma reference_none : forall op text label url title x evs, format_reference op text label url title = Ok (x, evs) -> span_codes evs = [].
Proof. intros op text label url title x evs E. unfold format_reference in E. destruct (strip_prefix _ _); [|destruct (seqb _ _)]; injection E as <- <-; reflexivity. Qed.
Lemma carry_image : forall n url title, carry (image U ENT o src n url title).
Proof.
  intros n url title. apply carry_inline; [|intro; apply puts_same; reflexivity]. apply wcarry_rbind. intros [[t l]|].
  - apply wcarry_none. intros x evs E. destruct (collect_text U ENT o src n) as [[y e]|]; [|discriminate]. unfold wbind, unwritten in E. cbn [rbind fst snd] in E.
    destruct (format_reference_image t l url title) as [[z f]|] eqn:F; [|discriminate]. injection E as <- <-.
    rewrite span_codes_app, unwritten_none. eapply reference_none. exact F.
  - apply wcarry_bind; [apply wcarry_collect_text|]. intros x y evs E. eapply inline_image_in; exact E.
Qed.
Lemma carry_output_trailing : forall cs first, carry (output_trailing first cs).
Proof. induction cs as [|c cs IH]; intro first; cbn [output_trailing]; [ct|]. destruct (node_value c); ct; apply IH. Qed.
Lemma carry_document_block : forall prev child a, carry a -> carry (document_block U o src checks prev child a).
Proof. intros prev child a R. unfold document_block. cbv zeta. ct. Qed.
Lemma carry_directive : forall prev child literal d, carry (directive_act U o checks prev child literal d).
Proof. intros prev child literal d. unfold directive_act. cbv zeta. destruct d; ct; apply carry_upd; repeat split. Qed.
Lemma carry_disable_file : forall child literal, carry (disable_file U o src ends_nl checks child literal).
Proof. intros. unfold disable_file. ct. Qed.
Lemma carry_document_loop : forall k ts prev f, Forall (fun x => is_footnote_def (fst x) = false -> carry (snd x)) k -> carry f ->
  carry (document_loop U o src ends_nl checks ts prev k f).
Proof.
  intros k ts prev f H F. revert ts prev. induction H as [|[n a] k R H IH]; intros ts prev; cbn [document_loop]; [exact F|]. cbn [fst snd] in R.
  cbv zeta. pose proof (IH (ts - 1) (Some n)) as C.
  destruct ((ts =? 0) && is_html_block n); [exact C|]. destruct (is_footnote_def n); [exact C|].
  assert (D : carry (document_block U o src checks prev n a ;; document_loop U o src ends_nl checks (ts - 1) (Some n) k f))
    by (apply carry_seq; [apply carry_document_block; apply R; reflexivity|exact C]).
  destruct (node_value n); try exact D. destruct (directive_of n) as [d|]; [|exact D].
  destruct d; try (apply carry_seq; [apply carry_directive|exact C]). apply carry_disable_file.
Qed.
Lemma carry_collect_lines : forall n, carry (collect_reference_lines n).
Proof.
  induction n as [v pos cs IH] using node_ind'. cbn [collect_reference_lines]. apply carry_seq; [destruct v; ct|].
  apply carry_all. apply Forall_map. exact IH.
Qed.

(** ** Tables *)
Lemma core_escape_cell : tables = true -> forall x, core (escape_table_cell x) = core x.
Proof.
  intros T x. assert (G : forall n x, List.length x <= n -> core (escape_table_cell x) = core x); [|eapply G; apply le_n].
  assert (M : mark c_bs = true) by (unfold layout_mark; rewrite T; destruct quotes; reflexivity).
  clear x. induction n as [|n IH]; intros x L; [destruct x; [reflexivity|cbn in L; lia]|]. destruct x as [|c x]; [reflexivity|]. cbn [List.length] in L.
  cbn [escape_table_cell]. destruct (ceq c c_bs) eqn:E1.
  - destruct x as [|d x]; [reflexivity|]. cbn [List.length] in L. change (c :: d :: escape_table_cell x) with ([c; d] ++ escape_table_cell x).
    change (c :: d :: x) with ([c; d] ++ x). rewrite !core_app, IH by lia. reflexivity.
  - destruct (ceq_spec c c_pipe) as [->|E2].
    + change (c_bs :: c_pipe :: escape_table_cell x) with ([c_bs] ++ [c_pipe] ++ escape_table_cell x).
      change (c_pipe :: x) with ([c_pipe] ++ x). rewrite !core_app, IH by lia.
      replace (core [c_bs]) with (@nil char) by (unfold bare; cbn [filter]; rewrite M; reflexivity). reflexivity.
    + change (c :: escape_table_cell x) with ([c] ++ escape_table_cell x). change (c :: x) with ([c] ++ x). rewrite !core_app, IH by lia. reflexivity.
Qed.
(** Cells with the code in them. *)
Definition cells_hold (l : list str) (cells : list str) : Prop := exists gs, l = List.concat gs /\ Forall2 hold gs cells.
Definition rows_hold (l : list str) (rows : list (list str)) : Prop := exists gs, l = List.concat gs /\ Forall2 cells_hold gs rows.
Lemma rcollect_hold : forall l, Forall wcarry l -> forall cells evs, rcollect l = Ok (cells, evs) -> cells_hold (span_codes evs) cells.
Proof.
  intros l H. induction H as [|w l Hw H IH]; intros cells evs E; cbn [rcollect] in E; [injection E as <- <-; exists []; split; [reflexivity|constructor]|].
  destruct w as [[x e]|]; [|discriminate]. cbn [rbind] in E. destruct (rcollect l) as [[cs f]|]; [|discriminate]. injection E as <- <-. cbn [fst snd].
  destruct (IH cs f eq_refl) as (gs & G & F). exists (span_codes e :: gs). cbn [List.concat]. rewrite span_codes_app, G. split; [reflexivity|].
  constructor; [apply Hw; reflexivity|exact F].
Qed.
Lemma table_rows_hold : forall rows cells evs, table_rows U ENT o src rows = Ok (cells, evs) -> rows_hold (span_codes evs) cells.
Proof.
  induction rows as [|r rows IH]; intros cells evs E; cbn [table_rows] in E; [injection E as <- <-; exists []; split; [reflexivity|constructor]|].
  destruct (rcollect _) as [[x e]|] eqn:R; [|discriminate]. cbn [rbind] in E. destruct (table_rows U ENT o src rows) as [[y f]|]; [|discriminate].
  injection E as <- <-. cbn [fst snd]. destruct (IH y f eq_refl) as (gs & G & F). exists (span_codes e :: gs). cbn [List.concat].
  rewrite span_codes_app, G. split; [reflexivity|]. constructor; [|exact F]. eapply rcollect_hold; [|exact R].
  apply Forall_map. apply Forall_forall. intros c _. apply wcarry_content.
Qed.
Lemma hold_l : forall l x g, hold l x -> hold l (g ++ x).
Proof. intros l x g H. unfold carries. rewrite core_app. apply laced_l. exact H. Qed.
Lemma hold_r : forall l x g, hold l x -> hold l (x ++ g).
Proof. intros l x g H. unfold carries. rewrite core_app. apply laced_r. exact H. Qed.
Lemma hold_cell : tables = true -> forall l x w a, hold l x -> hold l (format_cell_aligned U (escape_table_cell x) w a).
Proof.
  intros T l x w a H. assert (K : hold l (escape_table_cell x)) by (eapply hold_same; [exact H|apply core_escape_cell; exact T]).
  unfold format_cell_aligned. cbv zeta. destruct a; repeat first [exact K|apply hold_r; exact K|apply hold_l].
Qed.
Lemma hold_row_cells : tables = true -> forall gs cells, Forall2 hold gs cells -> forall ws aligns,
  hold (List.concat gs) (row_cells_text U ws aligns (map escape_table_cell cells)).
Proof.
  intros T gs cells F. induction F as [|g c gs cells H F IH]; intros ws aligns; [apply hold_nil|]. cbn [map List.concat row_cells_text].
  apply hold_l. apply hold_app; [apply hold_cell; assumption|]. apply hold_l. apply IH.
Qed.
Lemma hold_row : tables = true -> forall l cells quote ws aligns, cells_hold l cells -> hold l (row_text U quote ws aligns (map escape_table_cell cells)).
Proof. intros T l cells quote ws aligns (gs & -> & F). unfold row_text. do 2 apply hold_l. apply hold_r. apply hold_row_cells; assumption. Qed.
Lemma hold_rows : tables = true -> forall gs rows quote ws aligns, Forall2 cells_hold gs rows ->
  hold (List.concat gs) (flat_map (row_text U quote ws aligns) (map (map escape_table_cell) rows)).
Proof.
  intros T gs rows quote ws aligns F. induction F as [|g r gs rows H F IH]; [apply hold_nil|]. cbn [map flat_map List.concat].
  apply hold_app; [apply hold_row; assumption|exact IH].
Qed.
Lemma hold_table : tables = true -> forall l rows quote aligns, rows_hold l rows -> hold l (table_text U quote aligns rows).
Proof.
  intros T l rows quote aligns (gs & -> & F). unfold table_text. destruct F as [|g r gs rows H F]; [apply hold_nil|]. cbn [map List.concat]. cbv zeta.
  apply hold_app; [apply hold_row; assumption|]. apply hold_l. apply hold_rows; assumption.
Qed.
Lemma carry_table : forall pos aligns rows, tables = true -> carry (table U ENT o src pos aligns rows).
Proof.
  intros pos aligns rows T. unfold table. destruct (is_nil rows); [ct|]. apply carry_seq; [apply carry_warn|].
  destruct (table_rows U ENT o src rows) as [[cells evs]|] eqn:E; [|ct]. pose proof (table_rows_hold _ _ _ E) as H.
  intros s s' C F. unfold seqa in F. destruct (events_trace evs s) as (m & Em & Tr & Cx & _). rewrite Em in F. cbn [rbind] in F.
  unfold get in F. injection F as <-. cbn. rewrite Cx. split; [exact C|]. eexists. exists (span_codes evs). unfold adds.
  cbn [output trace set_output]. rewrite (events_output _ _ _ Em), Tr. repeat split. apply hold_table; assumption.
Qed.

Definition quotes_ok (n : node) : Prop := has_quotes n -> quotes = true.
Definition tables_ok (n : node) : Prop := has_tables n -> tables = true.
Lemma below : forall v p cs c, In c cs -> (has_quotes c -> has_quotes (Node v p cs)) /\ (has_tables c -> has_tables (Node v p cs))
  /\ (has_notes c -> has_notes (Node v p cs)).
Proof.
  intros v p cs c I. split; [|split].
  - intros (m & Wm & H). exists m. split; [eapply within_below; eassumption|exact H].
  - intros (m & a & Wm & H). exists m, a. split; [eapply within_below; eassumption|exact H].
  - intros (m & a & Wm & H). exists m, a. split; [eapply within_below; eassumption|exact H].
Qed.
Lemma next_kids : forall (f : option node -> node -> act) cs, Forall (fun c => forall nx, carry (f nx c)) cs -> kcarry (combine cs (with_next f cs)).
Proof. intros f cs H. induction H; cbn [with_next combine]; constructor; cbn; auto. Qed.
Lemma carry_document : forall n k, kcarry k -> Forall (fun x => is_footnote_def (fst x) = false) k -> carry (document U o src ends_nl checks n k).
Proof.
  intros n k H N. unfold document. cbv zeta. destruct (check_undefined checks src n) as [ws|]; [|ct].
  apply carry_seq; [apply carry_warn|]. apply carry_seq; [apply carry_collect_lines|]. apply carry_seq.
  - apply carry_all. apply Forall_map. eapply Forall_impl; [|exact N]. intros [m a] E. cbn [fst snd] in *. rewrite E. apply carry_nop.
  - apply carry_document_loop; [eapply Forall_impl; [|exact H]; auto|]. apply carry_seq; [apply carry_flush_all|apply carry_output_trailing].
Qed.
Theorem carry_serialize : forall n next, quotes_ok n -> tables_ok n -> ~ has_notes n -> carry (serialize U PN ENT o B src ends_nl checks next n).
Proof.
  induction n as [v p cs IH] using node_ind'. intros next Q T N.
  assert (K : kcarry (combine cs (with_next (serialize U PN ENT o B src ends_nl checks) cs))).
  { apply next_kids. rewrite Forall_forall in *. intros c I nx. destruct (below v p cs c I) as (X & Y & Z).
    apply (IH c I); [intro H; apply Q, X, H|intro H; apply T, Y, H|intro H; apply N, Z, H]. }
  assert (D : Forall (fun x => is_footnote_def (fst x) = false) (combine cs (with_next (serialize U PN ENT o B src ends_nl checks) cs))).
  { apply Forall_forall. intros [c a] I. apply in_combine_l in I. cbn [fst]. destruct (is_footnote_def c) eqn:E; [|reflexivity].
    apply note_iff in E. destruct E as [name E]. exfalso. apply N. exists c, name. split; [eapply within_below; [exact I|apply within_here]|exact E]. }
  assert (QH : (v = NBlockQuote \/ exists a, v = NAlert a) -> quotes = true).
  { intro H. apply Q. exists (Node v p cs). split; [apply within_here|exact H]. }
  assert (TH : forall a, v = NTable a -> tables = true).
  { intros a H. apply T. exists (Node v p cs), a. split; [apply within_here|exact H]. }
  cbn [serialize]. cbv zeta.
  destruct v;
    first [ apply carry_document; [exact K|exact D] | apply carry_block_quote; [apply QH; left; reflexivity|exact K] | apply carry_list; exact K
          | apply carry_item; exact K | apply carry_description_list; exact K | apply carry_details; exact K
          | apply carry_paragraph | apply carry_heading
          | apply carry_table; eapply TH; reflexivity | apply carry_link; exact K | apply carry_image
          | apply carry_alert; [apply QH; right; eexists; reflexivity|exact K] | apply carry_children; exact K
          | idtac ]; unfold thematic_break; ct; try (apply carry_children; exact K).
  exfalso. apply N. eexists. eexists. split; [apply within_here|reflexivity].
Qed.
End Run.
End Carry.
