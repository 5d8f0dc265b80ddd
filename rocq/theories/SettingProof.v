(** A single setting does not matter where nothing is what it is about (C63). *)
From Coq Require Import Bool Arith NArith Lia ZifyBool ZifyNat ZifyN String List.
From Verif Require Import Base BaseFacts OptsModel PunctModel WrapModel CodeModel TableModel HeadingModel AstModel StateModel
  InlineModel WarnModel SerModel SpecContext SpecSetting StateProof SerFacts.
From Verif Require CodeProof.
Import ListNotations.

(** ** Punctuation *)
Lemma occurs_nil : forall t, occurs [] t.
Proof. intro t. exists [], t. reflexivity. Qed.
Lemma occurs_cons : forall w c t, occurs w t -> occurs w (c :: t).
Proof. intros w c t (x & y & ->). exists (c :: x), y. reflexivity. Qed.
Lemma occurs_prefix : forall w y, occurs w (w ++ y).
Proof. intros w y. exists [], y. reflexivity. Qed.
Lemma occurs_app : forall w x t, occurs w t -> occurs w (x ++ t).
Proof. intros w x t (u & v & ->). exists (x ++ u), v. rewrite <- !app_assoc. reflexivity. Qed.
Lemma occurs_inv : forall w c t, occurs w (c :: t) -> (exists y, c :: t = w ++ y) \/ occurs w t.
Proof.
  intros w c t (x & y & E). destruct x as [|d x]; [left; exists y; exact E|]. injection E as -> ->. right. exists x, y. reflexivity.
Qed.
Lemma strip_some : forall p t r, strip_prefix p t = Some r -> t = p ++ r.
Proof.
  induction p as [|c p IH]; intros t r E; cbn in E; [injection E as <-; reflexivity|].
  destruct t as [|d t]; [discriminate|]. destruct (ceq_spec c d) as [->|]; [|discriminate]. cbn. f_equal. apply IH. exact E.
Qed.

(** What is read in the dashed text without the dash itself was there. *)
Lemma dashes_prefix : forall k r pat w prev t y, ~ In r w -> transform_dashes_from k prev pat r t = w ++ y -> exists z, t = w ++ z.
Proof.
  induction k as [|k IH]; intros r pat w prev t y N E; cbn [transform_dashes_from] in E; [exists y; exact E|].
  destruct w as [|x w]; [exists t; reflexivity|]. destruct t as [|c rest]; [discriminate|]. cbn [app] in E.
  assert (Nx : r <> x) by (intro; subst; apply N; left; reflexivity).
  assert (Nw : ~ In r w) by (intro I; apply N; right; exact I).
  assert (Keep : forall q, c :: transform_dashes_from k q pat r rest = x :: w ++ y -> exists z, c :: rest = (x :: w) ++ z).
  { intros q E'. injection E' as <- E'. apply (IH r pat w) in E'; [|exact Nw]. destruct E' as [z ->]. exists z. reflexivity. }
  destruct (strip_prefix pat (c :: rest)) as [after|]; [|eapply Keep; exact E].
  destruct (List.length pat =? 1); [|injection E as E _; contradiction]. cbv zeta in E.
  destruct (_ && _); [injection E as E _; contradiction|eapply Keep; exact E].
Qed.
Lemma dashes_occurs : forall k r pat w prev t, ~ In r w -> occurs w (transform_dashes_from k prev pat r t) -> occurs w t.
Proof.
  induction k as [|k IH]; intros r pat w prev t N O; [exact O|].
  destruct t as [|c rest]; [exact O|].
  assert (P : forall y, transform_dashes_from (S k) prev pat r (c :: rest) = w ++ y -> occurs w (c :: rest)).
  { intros y E. apply dashes_prefix in E; [|exact N]. destruct E as [z ->]. apply occurs_prefix. }
  destruct O as (x & y & E). destruct x as [|d x]; [exact (P y E)|]. clear P. cbn [transform_dashes_from] in E.
  assert (Keep : forall q e, e :: transform_dashes_from k q pat r rest = (d :: x) ++ w ++ y -> occurs w (c :: rest)).
  { intros q e E'. injection E' as _ E'. apply occurs_cons. apply (IH r pat w q); [exact N|]. exists x, y. exact E'. }
  assert (Skip : forall q after, strip_prefix pat (c :: rest) = Some after -> r :: transform_dashes_from k q pat r after = (d :: x) ++ w ++ y -> occurs w (c :: rest)).
  { intros q after E1 E'. apply strip_some in E1. rewrite E1. injection E' as _ E'. apply occurs_app. apply (IH r pat w q); [exact N|]. exists x, y. exact E'. }
  destruct (strip_prefix pat (c :: rest)) as [after|] eqn:S; [|eapply Keep; exact E].
  destruct (List.length pat =? 1); [cbv zeta in E; destruct (_ && _)|]; [eapply Skip; [reflexivity|exact E]|eapply Keep; exact E|eapply Skip; [reflexivity|exact E]].
Qed.
Lemma dashes_idle : forall k r pat prev t, ~ occurs pat t -> transform_dashes_from k prev pat r t = t.
Proof.
  induction k as [|k IH]; intros r pat prev t N; [reflexivity|]. destruct t as [|c rest]; [reflexivity|]. cbn [transform_dashes_from].
  destruct (strip_prefix pat (c :: rest)) as [after|] eqn:S.
  { exfalso. apply N. apply strip_some in S. rewrite S. apply occurs_prefix. }
  f_equal. apply IH. intro O. apply N. apply occurs_cons. exact O.
Qed.
Definition dashed (d : DashSetting) (r : char) (t : str) : str := match d with DPattern p => transform_dashes t p r | DDisabled => t end.
Lemma dashed_occurs : forall d r w t, ~ In r w -> occurs w (dashed d r t) -> occurs w t.
Proof. intros [|p] r w t N O; [exact O|]. cbn [dashed] in O. unfold transform_dashes in O. destruct (is_nil p); [exact O|]. eapply dashes_occurs; eassumption. Qed.
Lemma dashed_idle : forall d r t, (forall p, d = DPattern p -> ~ occurs p t) -> dashed d r t = t.
Proof. intros [|p] r t N; [reflexivity|]. cbn [dashed]. unfold transform_dashes. destruct (is_nil p); [reflexivity|]. apply dashes_idle. apply N. reflexivity. Qed.

Lemma dots_idle_strong : forall n t, List.length t <= n -> ~ occurs (lit "...") t -> transform_ellipsis t = t.
Proof.
  induction n as [|n IH]; intros t L N; (destruct t as [|x t]; [reflexivity|]); [cbn in L; lia|]. cbn [List.length] in L.
  assert (T : transform_ellipsis t = t) by (apply IH; [lia|intro O; apply N; apply occurs_cons; exact O]).
  cbn [transform_ellipsis]. rewrite T. destruct (ceq_spec x c_dot) as [->|]; [|reflexivity].
  destruct t as [|y t]; [reflexivity|]. destruct t as [|z t]; [reflexivity|].
  destruct (ceq_spec y c_dot) as [->|]; [|reflexivity]. destruct (ceq_spec z c_dot) as [->|]; [|reflexivity].
  exfalso. apply N. exists [], t. reflexivity.
Qed.
Lemma dots_idle : forall t, ~ occurs (lit "...") t -> transform_ellipsis t = t.
Proof. intros t. exact (dots_idle_strong _ t (le_n _)). Qed.
Lemma single_occurs : forall c t, occurs [c] t <-> In c t.
Proof.
  intros c t. split; [intros (x & y & ->); apply in_or_app; right; left; reflexivity|].
  intro I. apply in_split in I. destruct I as (x & y & ->). exists x, y. reflexivity.
Qed.
Lemma dots_in_strong : forall n c t, List.length t <= n -> c <> c_ellipsis -> In c (transform_ellipsis t) -> In c t.
Proof.
  induction n as [|n IH]; intros c t L N I; (destruct t as [|x t]; [exact I|]); [cbn in L; lia|]. cbn [List.length] in L.
  cbn [transform_ellipsis] in I.
  assert (T : In c (transform_ellipsis t) -> In c t) by (apply IH; [lia|exact N]).
  assert (D : In c (x :: transform_ellipsis t) -> In c (x :: t)) by (intros [E|J]; [left; exact E|right; apply T; exact J]).
  destruct (ceq x c_dot); [|apply D; exact I]. destruct t as [|y t]; [apply D; exact I|]. destruct t as [|z t]; [apply D; exact I|].
  destruct (ceq y c_dot && ceq z c_dot); [|apply D; exact I].
  destruct t as [|u t]; [destruct I as [E|[]]; symmetry in E; contradiction|].
  destruct (ceq_spec u c_dot) as [->|]; destruct I as [E|I]; try (symmetry in E; contradiction).
  - destruct I as [<-|I]; [do 3 right; left; reflexivity|]. do 4 right. apply (IH c t); [cbn in L; lia|exact N|exact I].
  - do 3 right. apply (IH c (u :: t)); [cbn in L |- *; lia|exact N|exact I].
Qed.
Lemma dots_in : forall c t, c <> c_ellipsis -> In c (transform_ellipsis t) -> In c t.
Proof. intros c t. exact (dots_in_strong _ c t (le_n _)). Qed.
Lemma doubles_idle : forall t prev e, ~ In c_dq t -> transform_double_quotes_from prev e t = t.
Proof.
  induction t as [|c t IH]; intros prev e N; [reflexivity|]. cbn [transform_double_quotes_from].
  destruct (ceq_spec c c_dq) as [->|]; [exfalso; apply N; left; reflexivity|]. f_equal. apply IH. intro I. apply N. right. exact I.
Qed.
Lemma doubles_in : forall t prev e c, c <> c_ldq -> c <> c_rdq -> In c (transform_double_quotes_from prev e t) -> In c t.
Proof.
  induction t as [|x t IH]; intros prev e c N1 N2 I; [exact I|]. cbn [transform_double_quotes_from] in I.
  destruct (ceq x c_dq); [destruct (should_be_opening_quote _ _ _)|]; destruct I as [E|I]; try (symmetry in E; contradiction);
    try (left; exact E); right; eapply IH; eassumption.
Qed.
Section Quotes.
Variable U : Uni.
Lemma singles_idle : forall t prev e, ~ In c_sq t -> transform_single_quotes_from U prev e t = t.
Proof.
  induction t as [|c t IH]; intros prev e N; [reflexivity|]. cbn [transform_single_quotes_from].
  destruct (ceq_spec c c_sq) as [->|]; [exfalso; apply N; left; reflexivity|]. f_equal. apply IH. intro I. apply N. right. exact I.
Qed.
Lemma apostrophes_idle : forall t prev e, ~ In c_sq t -> transform_apostrophes_from U prev e t = t.
Proof.
  induction t as [|c t IH]; intros prev e N; [reflexivity|]. cbn [transform_apostrophes_from].
  destruct (ceq_spec c c_sq) as [->|]; [exfalso; apply N; left; reflexivity|]. f_equal. apply IH. intro I. apply N. right. exact I.
Qed.

(** Nothing in the text is what the setting is about. *)
Definition quiet (x : setting) (o : Options) (t : str) : Prop :=
  match x with
  | DoubleQuotes => ~ occurs [34%N] t
  | SingleQuotes | Apostrophes => ~ occurs [39%N] t
  | Ellipses => ~ occurs (lit "...") t
  | EnDashes => forall p, en_dash o = DPattern p -> ~ In 8212%N p /\ ~ occurs p t
  | EmDashes => forall p, em_dash o = DPattern p -> ~ occurs p t
  | _ => True
  end.
Lemma punctuation_quiet : forall P a b t, same_but P a b -> (forall x, P x -> quiet x a t /\ quiet x b t) ->
  transform_punctuation U a t = transform_punctuation U b t.
Proof.
  intros P a b t S Q. unfold transform_punctuation.
  change (match em_dash a with DPattern p => transform_dashes t p c_emdash | DDisabled => t end) with (dashed (em_dash a) c_emdash t).
  change (match em_dash b with DPattern p => transform_dashes t p c_emdash | DDisabled => t end) with (dashed (em_dash b) c_emdash t).
  assert (E1 : dashed (em_dash a) c_emdash t = dashed (em_dash b) c_emdash t).
  { destruct (sb_em _ _ _ S) as [H| ->]; [|reflexivity]. destruct (Q _ H) as [Qa Qb]. rewrite !dashed_idle; [reflexivity|exact Qb|exact Qa]. }
  rewrite <- E1. pose proof (dashed_occurs (em_dash a) c_emdash) as O1. set (r1 := dashed (em_dash a) c_emdash t) in *.
  change (match en_dash a with DPattern p => transform_dashes r1 p c_endash | DDisabled => r1 end) with (dashed (en_dash a) c_endash r1).
  change (match en_dash b with DPattern p => transform_dashes r1 p c_endash | DDisabled => r1 end) with (dashed (en_dash b) c_endash r1).
  assert (E2 : dashed (en_dash a) c_endash r1 = dashed (en_dash b) c_endash r1).
  { destruct (sb_en _ _ _ S) as [H| ->]; [|reflexivity]. destruct (Q _ H) as [Qa Qb]. cbn [quiet] in Qa, Qb.
    rewrite !dashed_idle; [reflexivity|intros p E|intros p E]; intro O;
      [destruct (Qb p E) as [X Y]|destruct (Qa p E) as [X Y]]; apply Y; apply (O1 p t X O). }
  rewrite <- E2. pose proof (dashed_occurs (en_dash a) c_endash) as O2. set (r2 := dashed (en_dash a) c_endash r1) in *.
  assert (O : forall w, ~ In c_emdash w -> ~ In c_endash w -> occurs w r2 -> occurs w t).
  { intros w X Y Z. apply (O1 w t X). apply (O2 w r1 Y Z). }
  assert (E3 : (if ellipsis a then transform_ellipsis r2 else r2) = (if ellipsis b then transform_ellipsis r2 else r2)).
  { destruct (sb_ellipsis _ _ _ S) as [H| ->]; [|reflexivity]. destruct (Q _ H) as [Qa _]. cbn [quiet] in Qa.
    rewrite dots_idle; [destruct (ellipsis a), (ellipsis b); reflexivity|]. intro Z. apply Qa. revert Z. apply O; cbn; intuition discriminate. }
  rewrite <- E3. set (r3 := if ellipsis a then transform_ellipsis r2 else r2) in *.
  assert (I3 : forall c, c <> c_ellipsis -> c <> c_emdash -> c <> c_endash -> In c r3 -> In c t).
  { intros c N1 N2 N3 I. assert (I2 : In c r2) by (unfold r3 in I; destruct (ellipsis a); [apply dots_in in I|]; assumption).
    apply single_occurs. apply O; [intros [F|[]]; congruence|intros [F|[]]; congruence|]. apply single_occurs. exact I2. }
  assert (E4 : (if curly_double_quotes a then transform_double_quotes r3 else r3) = (if curly_double_quotes b then transform_double_quotes r3 else r3)).
  { destruct (sb_double _ _ _ S) as [H| ->]; [|reflexivity]. destruct (Q _ H) as [Qa _]. cbn [quiet] in Qa. unfold transform_double_quotes.
    rewrite doubles_idle; [destruct (curly_double_quotes a), (curly_double_quotes b); reflexivity|].
    intro I. apply Qa. apply single_occurs. apply I3; [discriminate..|exact I]. }
  rewrite <- E4. set (r4 := if curly_double_quotes a then transform_double_quotes r3 else r3) in *.
  assert (I4 : In c_sq r4 -> In c_sq t).
  { intro I. apply I3; try discriminate. unfold r4 in I. destruct (curly_double_quotes a); [|exact I]. eapply doubles_in; [..|exact I]; discriminate. }
  assert (E5 : (if curly_single_quotes a then transform_single_quotes U r4 else r4) = (if curly_single_quotes b then transform_single_quotes U r4 else r4)).
  { destruct (sb_single _ _ _ S) as [H| ->]; [|reflexivity]. destruct (Q _ H) as [Qa _]. cbn [quiet] in Qa. unfold transform_single_quotes.
    rewrite singles_idle; [destruct (curly_single_quotes a), (curly_single_quotes b); reflexivity|].
    intro I. apply Qa. apply single_occurs. apply I4. exact I. }
  rewrite <- E5. set (r5 := if curly_single_quotes a then transform_single_quotes U r4 else r4) in *.
  destruct (sb_apostrophes _ _ _ S) as [H| ->]; [|reflexivity]. destruct (Q _ H) as [Qa _]. cbn [quiet] in Qa. unfold transform_apostrophes.
  assert (N4 : ~ In c_sq r4) by (intro I; apply Qa; apply single_occurs; apply I4; exact I).
  assert (R : r5 = r4).
  { unfold r5, transform_single_quotes. rewrite singles_idle; [|exact N4]. destruct (curly_single_quotes a); reflexivity. }
  rewrite R, apostrophes_idle; [destruct (curly_apostrophes a), (curly_apostrophes b); reflexivity|exact N4].
Qed.
End Quotes.

(** ** Everything else *)
Record rest (a b : Options) : Prop := {
  re_width : line_width a = line_width b;
  re_marker : unordered_marker a = unordered_marker b;
  re_leading : leading_spaces a = leading_spaces b;
  re_trailing : trailing_spaces a = trailing_spaces b;
  re_indent : indent_width a = indent_width b;
  re_odd : odd_level_marker a = odd_level_marker b;
  re_even : even_level_marker a = even_level_marker b;
  re_oindent : ordered_list_indent_width a = ordered_list_indent_width b;
  re_fence : fence_char a = fence_char b;
  re_min : min_fence_length a = min_fence_length b;
  re_space : space_after_fence a = space_after_fence b;
  re_style : thematic_break_style a = thematic_break_style b;
  re_spaces : thematic_break_leading_spaces a = thematic_break_leading_spaces b
}.
Ltac same_rest a b H := destruct H; destruct a, b; cbn in *; subst; reflexivity.

Section Setting.
Variable U : Uni.
Variable PN : list (str * str).
Variable ENT : str -> option str.
Variable a b : Options.
Variable B : backend.
Variable src : list str.
Variable ends_nl : bool.
Variable checks : bool.
Hypothesis H : rest a b.
Notation sera := (serialize U PN ENT a B src ends_nl checks).
Notation serb := (serialize U PN ENT b B src ends_nl checks).

Definition alike_here (v : value) : Prop :=
  match v with
  | NText t => transform_punctuation U a t = transform_punctuation U b t
  | NHeading l => forall nouns commons text, heading_output U PN a nouns commons l text = heading_output U PN b nouns commons l text
  | NCodeBlock i l => forall k, code_parts a B k i l = code_parts b B k i l
  | _ => True
  end.
Definition alike (n : node) : Prop := forall m, within m n -> alike_here (node_value m).
Lemma alike_node : forall v p cs, alike (Node v p cs) -> alike_here v /\ Forall alike cs.
Proof.
  intros v p cs A. split; [exact (A _ (within_here _))|]. apply Forall_forall. intros c I m W. apply A. eapply within_below; eassumption.
Qed.

Lemma E_flush : flush_all U a checks = flush_all U b checks. Proof. clear - H. same_rest a b H. Qed.
Lemma E_directive : directive_act U a checks = directive_act U b checks. Proof. clear - H. same_rest a b H. Qed.
Lemma E_disable : disable_file U a src ends_nl checks = disable_file U b src ends_nl checks. Proof. clear - H. same_rest a b H. Qed.
Lemma E_rule : thematic_break a = thematic_break b. Proof. clear - H. same_rest a b H. Qed.
Lemma E_head : item_head a = item_head b. Proof. clear - H. same_rest a b H. Qed.
Lemma E_base : item_base_indent a = item_base_indent b. Proof. clear - H. same_rest a b H. Qed.
Lemma E_continuation : paragraph_continuation a = paragraph_continuation b. Proof. clear - H. same_rest a b H. Qed.

Lemma wcat_map : forall (f g : node -> W) cs, Forall (fun c => f c = g c) cs -> wcat (map f cs) = wcat (map g cs).
Proof. intros f g cs F. f_equal. induction F as [|c cs E F IH]; [reflexivity|]. cbn [map]. rewrite E, IH. reflexivity. Qed.
Lemma E_text : forall n, alike n -> collect_text U ENT a src n = collect_text U ENT b src n.
Proof.
  induction n as [v p cs IH] using node_ind'. intro A. apply alike_node in A. destruct A as [V C].
  assert (K : wcat (map (collect_text U ENT a src) cs) = wcat (map (collect_text U ENT b src) cs)).
  { apply wcat_map. rewrite Forall_forall in *. intros c I. apply IH; [exact I|apply C; exact I]. }
  destruct v; cbn [collect_text]; try rewrite K; try reflexivity. unfold inline_text. cbn [alike_here] in V. rewrite V. reflexivity.
Qed.
Lemma with_next_eq : forall (f g : option node -> node -> W) cs, Forall (fun c => forall next, f next c = g next c) cs -> with_next f cs = with_next g cs.
Proof. intros f g cs F. induction F as [|c cs E F IH]; [reflexivity|]. cbn [with_next]. rewrite E, IH. reflexivity. Qed.
Lemma E_inline : forall n, alike n -> forall next, collect_inline U ENT a src next n = collect_inline U ENT b src next n.
Proof.
  induction n as [v p cs IH] using node_ind'. intros A next. apply alike_node in A. destruct A as [V C].
  assert (K : with_next (collect_inline U ENT a src) cs = with_next (collect_inline U ENT b src) cs).
  { apply with_next_eq. rewrite Forall_forall in *. intros c I. apply IH; [exact I|apply C; exact I]. }
  destruct v; cbn [collect_inline]; cbv zeta; try rewrite K; try reflexivity. unfold inline_text. cbn [alike_here] in V. rewrite V. reflexivity.
Qed.
Lemma E_all : forall cs, Forall alike cs -> with_next (collect_inline U ENT a src) cs = with_next (collect_inline U ENT b src) cs.
Proof. intros cs F. apply with_next_eq. eapply Forall_impl; [|exact F]. exact E_inline. Qed.
Lemma E_content : forall n, alike n -> inline_content U ENT a src n = inline_content U ENT b src n.
Proof. intros [v p cs] A. apply alike_node in A. unfold inline_content. cbn [node_children]. rewrite E_all; [reflexivity|apply A]. Qed.
Lemma E_code : forall i l, (forall k, code_parts a B k i l = code_parts b B k i l) -> forall k,
  (forall q, code_block a B q k i l = code_block b B q k i l) /\ (forall q indent, code_block_indented a B q k i l indent = code_block_indented b B q k i l indent)
  /\ (forall indent, code_block_with_indent a B k i l indent = code_block_with_indent b B k i l indent).
Proof.
  clear - H. intros i l E k. specialize (E k). unfold code_block, code_block_indented, code_block_with_indent, fence_for, info_suffix.
  rewrite (re_fence _ _ H), (re_min _ _ H), (re_space _ _ H). destruct (code_parts a B k i l) as [[x y] z]. rewrite <- E. auto.
Qed.

(** Acts that do the same. *)
Definition same (x y : act) : Prop := forall s, x s = y s.
Lemma same_refl : forall x, same x x. Proof. intros x s. reflexivity. Qed.
Lemma same_seq : forall x x' y y', same x x' -> same y y' -> same (x ;; y) (x' ;; y').
Proof. intros x x' y y' X Y s. unfold seqa. rewrite X. destruct (x' s); [apply Y|reflexivity]. Qed.
Lemma same_get : forall A (f : st -> A) k k', (forall v, same (k v) (k' v)) -> same (get f k) (get f k').
Proof. intros A f k k' G s. apply G. Qed.
Lemma same_code : forall f g, (forall k, f k = g k) -> same (code_act f) (code_act g).
Proof. intros f g E s. unfold code_act, get. rewrite E. reflexivity. Qed.
Ltac alk := repeat first [assumption | apply same_refl | apply same_seq | apply same_get; intro].

Definition kin (k l : kids) : Prop := Forall2 (fun x y => fst x = fst y /\ same (snd x) (snd y)) k l.
Lemma kin_kids : forall cs, Forall (fun c => forall next, same (sera next c) (serb next c)) cs ->
  kin (combine cs (with_next sera cs)) (combine cs (with_next serb cs)).
Proof.
  intros cs F. induction F as [|c cs Hc F IH]; [constructor|]. cbn [with_next combine]. constructor; [|exact IH]. split; [reflexivity|apply Hc].
Qed.
Lemma kin_fst : forall k l, kin k l -> map fst k = map fst l.
Proof. intros k l K. induction K as [|x y k l (E & _) K IH]; [reflexivity|]. cbn [map]. rewrite E, IH. reflexivity. Qed.
Lemma kin_children : forall k l, kin k l -> same (children_acts k) (children_acts l).
Proof.
  intros k l K. induction K as [|x y k l (_ & A) K IH]; [apply same_refl|].
  change (same (snd x ;; children_acts k) (snd y ;; children_acts l)). apply same_seq; assumption.
Qed.
Lemma kin_quote : forall k l, kin k l -> forall indent prefix first, same (blockquote_children indent prefix first k) (blockquote_children indent prefix first l).
Proof. intros k l K. induction K as [|[n x] [m y] k l (_ & A) K IH]; intros indent prefix first; [apply same_refl|]. cbn [blockquote_children]. alk. apply IH. Qed.
Lemma kin_block_quote : forall k l, kin k l -> same (block_quote k) (block_quote l).
Proof. intros k l K. unfold block_quote. alk. apply kin_quote. exact K. Qed.
Lemma kin_alert : forall k l t p, kin k l -> same (alert t p k) (alert t p l).
Proof.
  intros k l t p K. unfold alert. apply same_get. intro c. apply same_seq; [apply same_refl|]. apply same_seq; [|apply kin_block_quote; exact K].
  destruct K as [|[n x] [m y] k l (E & _) K]; [apply same_refl|]. cbn [fst] in E. subst m. apply same_refl.
Qed.
Lemma kin_list : forall kind tight k l, kin k l -> same (list_block kind tight k) (list_block kind tight l).
Proof. intros kind tight k l K. unfold list_block. rewrite <- (kin_fst _ _ K). alk. apply kin_children. exact K. Qed.
Definition calm (k : kids) : Prop := Forall (fun x => alike (fst x)) k.
Lemma calm_code : forall n i l, alike n -> node_value n = NCodeBlock i l -> forall k, code_parts a B k i l = code_parts b B k i l.
Proof. intros n i l A V. specialize (A n (within_here _)). rewrite V in A. exact A. Qed.
Lemma kin_item_children : forall k l, kin k l -> calm k -> forall base prev, same (item_children a B base prev k) (item_children b B base prev l).
Proof.
  intros k l K. induction K as [|[n x] [m y] k l (E & A) K IH]; intros C base prev; [apply same_refl|]. cbn [item_children fst snd] in *. subst m.
  apply Forall_cons_iff in C. destruct C as [Cn Ck]. cbn [fst] in Cn. cbv zeta.
  apply same_seq; [|apply IH; exact Ck].
  destruct (node_value n) eqn:V; try solve [alk].
  apply same_get. intro c. apply same_seq; [apply same_refl|]. apply same_code. intro k0. apply E_code. eapply calm_code; eassumption.
Qed.
Lemma last_kin : forall k l, kin k l -> last_child k = last_child l.
Proof.
  intros k l K. induction K as [|[n x] [m y] k l (E & _) K IH]; [reflexivity|]. cbn [fst] in E. subst m. cbn [last_child].
  destruct K as [|x' y' k l ? K]; [reflexivity|exact IH].
Qed.
Lemma kin_item : forall task k l, kin k l -> calm k -> same (list_item a B task k) (list_item b B task l).
Proof.
  intros task k l K C. unfold list_item. rewrite <- (last_kin _ _ K), <- E_head, <- E_base. apply same_seq; [apply same_refl|].
  apply same_get. intro c. apply same_seq; [apply same_refl|]. destruct (item_base_indent a c); [|apply same_refl].
  apply same_seq; [apply same_refl|]. apply same_seq; [apply kin_item_children; assumption|apply same_refl].
Qed.
Lemma E_details : forall quote marker n, alike n -> same (details_paragraph U ENT a src quote marker n) (details_paragraph U ENT b src quote marker n).
Proof. intros quote marker n A. unfold details_paragraph. rewrite (E_content n A), (re_width _ _ H). apply same_refl. Qed.
Lemma kin_details_children : forall k l, kin k l -> calm k -> forall quote first,
  same (details_children U ENT a B src quote first k) (details_children U ENT b B src quote first l).
Proof.
  intros k l K. induction K as [|[n x] [m y] k l (E & A) K IH]; intros C quote first; [apply same_refl|]. cbn [details_children fst snd] in *. subst m.
  apply Forall_cons_iff in C. destruct C as [Cn Ck]. cbn [fst] in Cn.
  apply same_seq; [|apply IH; exact Ck].
  destruct first; [|apply same_seq; [apply same_refl|]]; (destruct (node_value n) eqn:V; unfold with_item_indent; try (apply E_details; exact Cn); try solve [alk]).
  all: repeat (apply same_seq; [apply same_refl|]); apply same_code; intro k0; apply E_code; eapply calm_code; eassumption.
Qed.
Lemma kin_details : forall k l, kin k l -> calm k -> same (description_details U ENT a B src k) (description_details U ENT b B src l).
Proof. intros k l K C. unfold description_details. alk. apply kin_details_children; assumption. Qed.
Lemma kin_description_list : forall k l, kin k l -> forall first, same (description_list first k) (description_list first l).
Proof. intros k l K. induction K as [|[n x] [m y] k l (_ & A) K IH]; intros first; [apply same_refl|]. cbn [description_list]. alk. apply IH. Qed.
Lemma kin_blocks : forall k l f, kin k l -> forall result first, same (footnote_blocks result first k f) (footnote_blocks result first l f).
Proof.
  intros k l f K. induction K as [|[n x] [m y] k l (_ & A) K IH]; intros result first; [apply same_refl|]. cbn [footnote_blocks].
  unfold single_block. cbn [snd] in A. apply same_get. intro old. apply same_seq; [apply same_refl|]. apply same_seq; [exact A|].
  apply same_get. intro out. apply same_seq; [apply same_refl|apply IH].
Qed.
Lemma kin_note : forall name cs k l, Forall alike cs -> kin k l -> same (footnote_definition U ENT a src name cs k) (footnote_definition U ENT b src name cs l).
Proof.
  intros name cs k l C K. unfold footnote_definition. rewrite (E_all cs C). apply same_get. intro line. cbv zeta. apply same_seq; [apply same_refl|].
  destruct (footnote_has_blocks cs); [apply kin_blocks; exact K|apply same_refl].
Qed.
Lemma kin_link : forall next n url title k l, alike n -> kin k l -> same (link U ENT a src next n url title k) (link U ENT b src next n url title l).
Proof.
  intros next n url title k l A K. unfold link. rewrite <- (kin_fst _ _ K), <- (E_text n A). cbv zeta. pose proof (kin_children _ _ K) as Kc.
  destruct (reference_style_of src (node_pos n)) as [[[text label]|]|]; [..|apply same_refl];
    (destruct (existsb is_image (map fst k)); [alk|apply same_refl]).
Qed.
Lemma kin_block : forall prev n x y, same x y -> same (document_block U a src checks prev n x) (document_block U b src checks prev n y).
Proof.
  intros prev n x y A. unfold document_block. rewrite <- E_flush. apply same_seq; [apply same_refl|]. apply same_seq; [apply same_refl|].
  apply same_get. intro m. cbv zeta.
  assert (A' : same (match extract_source src (node_pos n) with Panic => panic | Ok (Some source) => emit (source ++ [c_nl]) | Ok None => x end)
    (match extract_source src (node_pos n) with Panic => panic | Ok (Some source) => emit (source ++ [c_nl]) | Ok None => y end)).
  { destruct (extract_source src (node_pos n)) as [[source|]|]; [apply same_refl|exact A|apply same_refl]. }
  destruct m; try assumption; [alk|]. destruct (is_section_heading n); [alk|exact A'].
Qed.
Lemma kin_loop : forall k l, kin k l -> forall ts prev fin fin', same fin fin' ->
  same (document_loop U a src ends_nl checks ts prev k fin) (document_loop U b src ends_nl checks ts prev l fin').
Proof.
  intros k l K. induction K as [|[n x] [m y] k l (E & A) K IH]; intros ts prev fin fin' F; [exact F|]. cbn [fst snd] in *. subst m.
  cbn [document_loop]. cbv zeta. rewrite <- E_directive, <- E_disable.
  assert (R : same (document_loop U a src ends_nl checks (ts - 1) (Some n) k fin) (document_loop U b src ends_nl checks (ts - 1) (Some n) l fin')) by (apply IH; exact F).
  destruct ((ts =? 0) && is_html_block n); [exact R|]. destruct (is_footnote_def n); [exact R|].
  pose proof (same_seq _ _ _ _ (kin_block prev n x y A) R) as D.
  destruct (node_value n) eqn:V; try exact D. destruct (directive_of n) as [d|]; [|exact D]. destruct d; alk.
Qed.
Lemma kin_notes : forall k l, kin k l ->
  same (all (map (fun ca => if is_footnote_def (fst ca) then snd ca else nop) k)) (all (map (fun ca => if is_footnote_def (fst ca) then snd ca else nop) l)).
Proof.
  intros k l K. induction K as [|[n x] [m y] k l (E & A) K IH]; [apply same_refl|]. cbn [map fst snd] in *. subst m.
  intro s. rewrite !all_cons. revert s. apply same_seq; [|exact IH]. destruct (is_footnote_def n); [exact A|apply same_refl].
Qed.
Lemma kin_document : forall n k l, kin k l -> same (document U a src ends_nl checks n k) (document U b src ends_nl checks n l).
Proof.
  intros n k l K. unfold document. rewrite <- (kin_fst _ _ K), <- E_flush. cbv zeta. destruct (check_undefined checks src n) as [ws|]; [|apply same_refl].
  repeat (apply same_seq; [first [apply kin_notes; exact K|apply same_refl]|]). apply kin_loop; [exact K|apply same_refl].
Qed.
Lemma E_paragraph : forall n, alike n -> same (paragraph U ENT a src n) (paragraph U ENT b src n).
Proof. intros n A. unfold paragraph. rewrite (E_content n A), E_continuation, (re_width _ _ H). apply same_refl. Qed.
Lemma E_cells : forall cs, Forall alike cs -> map (inline_content U ENT a src) cs = map (inline_content U ENT b src) cs.
Proof. intros cs C. induction C as [|c cs A C IH]; [reflexivity|]. cbn [map]. rewrite (E_content c A), IH. reflexivity. Qed.
Lemma E_rows : forall rows, Forall alike rows -> table_rows U ENT a src rows = table_rows U ENT b src rows.
Proof.
  intros rows F. induction F as [|[v p cs] rows A F IH]; [reflexivity|]. apply alike_node in A. cbn [table_rows node_children].
  rewrite (E_cells cs (proj2 A)), IH. reflexivity.
Qed.

Theorem settings_alike : forall n, alike n -> forall next, same (sera next n) (serb next n).
Proof.
  induction n as [v p cs IH] using node_ind'. intros A next. pose proof (alike_node _ _ _ A) as [V C].
  assert (K : kin (combine cs (with_next sera cs)) (combine cs (with_next serb cs))).
  { apply kin_kids. rewrite Forall_forall in *. intros c I. apply IH; [exact I|apply C; exact I]. }
  assert (Calm : calm (combine cs (with_next sera cs))).
  { apply Forall_forall. intros [c x] I. apply in_combine_l in I. rewrite Forall_forall in C. apply C. exact I. }
  pose proof (kin_children _ _ K) as Kc.
  destruct v; cbn [serialize]; cbv zeta; try solve [alk].
  all: try (apply kin_document; exact K).
  all: try (apply kin_description_list; exact K).
  all: try (apply kin_block_quote; exact K).
  all: try (apply kin_alert; exact K).
  all: try (apply kin_list; exact K).
  all: try (apply kin_item; assumption).
  all: try (apply kin_details; assumption).
  all: try (apply kin_note; assumption).
  all: try (apply kin_link; assumption).
  all: try (apply E_paragraph; exact A).
  all: try (rewrite E_rule; apply same_refl).
  - apply same_get. intro c. apply same_code. intro k. apply E_code. exact V.
  - unfold heading. rewrite (E_text _ A). destruct (collect_text U ENT b src _) as [[text evs]|]; [|apply same_refl].
    cbn [inline]. apply same_seq; [apply same_refl|]. intro s. unfold get. rewrite V. reflexivity.
  - unfold table. rewrite (E_rows cs C). apply same_refl.
Qed.
End Setting.
