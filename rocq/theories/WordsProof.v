(** Two runs whose options differ only in the line width go side by side:
    outputs with the same words, quote marks aside. *)
From Coq Require Import Bool Arith NArith Lia ZifyBool ZifyNat ZifyN String List.
From Verif Require Import Base BaseFacts OptsModel PunctModel WrapModel SpecWrap WrapProof PropsWrap CodeModel TableModel HeadingModel AstModel StateModel
  InlineModel WarnModel SerModel SpecContext CodeProof StateProof SerFacts ContextProof DocProof SpecSame SameProof CarryProof SpecWidth WordsText.
From Verif Require WidthProof.
Import ListNotations.

Section Words.
Variable quotes : bool.
Local Notation alike := (alike quotes).
Local Notation white := (white quotes).
Local Notation gap := (gap quotes).
Local Notation squash := (squash quotes).
Local Notation ends_ws := (ends_ws quotes).
Variable U : Uni.
Variable PN : list (str * str).
Variable ENT : str -> option str.
Variable o : Options.
Variable w : nat.
Variable B : backend.
Variable src : list str.
Variable ends_nl : bool.
Variable checks : bool.
Local Notation p := (with_width o w).

(** ** Paragraphs *)
Lemma begins_trimmed : forall c m d, is_ws c = false -> is_ws d = false -> trim (c :: m ++ [d]) = c :: m ++ [d].
Proof. intros c m d C D. unfold trim, trim_start. cbn [drop_while]. rewrite C, app_comm_cons. apply trim_end_snoc_id. exact D. Qed.
Lemma trimmed_join : forall y ls, ls <> [] -> Forall trimmed ls -> trimmed (join [y] ls).
Proof.
  intros y ls N F. induction F as [|l ls L F IH]; [contradiction|]. destruct ls as [|x ls]; [exact L|]. rewrite join_cons.
  specialize (IH ltac:(discriminate)). destruct (trim_id l L) as (c & r & -> & C & _). destruct (trim_id _ IH) as (d & z & E & D & T).
  destruct (trim_end_last (join [y] (x :: ls))) as [Z|(a & e & Z & De)]; rewrite T in Z; [rewrite Z in E; discriminate E|]. rewrite Z. split; [|discriminate].
  replace ((c :: r) ++ [y] ++ a ++ [e]) with (c :: (r ++ y :: a) ++ [e]) by (cbn [app]; rewrite <- app_assoc; reflexivity). apply begins_trimmed; assumption.
Qed.
Lemma flowing_trim : forall t, flowing t -> trim t = t.
Proof.
  intros t F. assert (T : trimmed t); [|apply T]. rewrite <- (join_split_on c_nl t). apply trimmed_join; [apply split_on_nonempty|].
  eapply Forall_impl; [|exact F]. intros s L. rewrite <- (join_split_on soft s). apply trimmed_join; [apply split_on_nonempty|exact L].
Qed.
(** Alike, and both or neither blank. *)
Definition both (x y : str) : Prop := alike x y /\ empty x = empty y.
Lemma both_refl : forall x, both x x.
Proof. intro x. split; reflexivity. Qed.
Lemma both_app : forall a b x y, both a b -> both x y -> both (a ++ x) (b ++ y).
Proof. intros a b x y [A1 A2] [B1 B2]. split; [apply alike_app; assumption|]. rewrite !empty_app, A2, B2. reflexivity. Qed.
Lemma flowing_shows : forall t, flowing t -> nonws t <> [].
Proof.
  intros t F. pose proof (flowing_trim t F) as T. assert (N : trimmed t).
  { rewrite <- (join_split_on c_nl t). apply trimmed_join; [apply split_on_nonempty|].
    eapply Forall_impl; [|exact F]. intros s L. rewrite <- (join_split_on soft s). apply trimmed_join; [apply split_on_nonempty|exact L]. }
  (* the first line of the first piece does not begin with a mark *)
  unfold flowing, segments in F. pose proof (join_split_on c_nl t) as J. destruct (split_on c_nl t) as [|s ss] eqn:E; [exfalso; eapply split_on_nonempty; exact E|].
  apply Forall_inv in F. pose proof (join_split_on soft s) as K. unfold soft_lines in F. pose proof (split_on_forall soft s) as NS.
  destruct (split_on soft s) as [|l ls] eqn:E'; [exfalso; eapply split_on_nonempty; exact E'|].
  apply Forall_inv in F. apply Forall_inv in NS. destruct (trim_id l F) as (c & r & -> & D & _). apply Forall_inv in NS.
  assert (exists x, t = c :: x) as (x & ->).
  { rewrite <- J. assert (exists y, s = c :: y) as (y & ->) by (rewrite <- K; destruct ls; eexists; reflexivity). destruct ss; eexists; reflexivity. }
  unfold nonws. cbn [filter]. rewrite D. cbn [orb]. destruct (ceq_spec c soft); [contradiction|discriminate].
Qed.
Lemma wrap_both : forall t q l1 l2, white q = true -> flowing t -> both (wrap_text U t q l1) (wrap_text U t q l2).
Proof.
  intros t q l1 l2 W F. split; [eapply alike_trans; [apply wrap_alike; assumption|]; apply alike_sym; apply wrap_alike; assumption|].
  pose proof (flowing_shows t F) as N. change empty with WidthProof.white. rewrite !WidthProof.wrap_shows by exact N. reflexivity.
Qed.
Lemma first_both : forall t cp l1 l2, white cp = true -> flowing t -> both (wrap_text_first_line U t [] cp l1) (wrap_text_first_line U t [] cp l2).
Proof.
  intros t cp l1 l2 W F. split; [eapply alike_trans; [apply first_alike; assumption|]; apply alike_sym; apply first_alike; assumption|].
  pose proof (flowing_shows t F) as N. change empty with WidthProof.white. rewrite !WidthProof.wrap_first_shows by exact N. reflexivity.
Qed.
Lemma white_spaces : forall n, white (spaces n) = true.
Proof. induction n as [|n IH]; [reflexivity|]. exact IH. Qed.

(** ** Footnotes *)
Lemma after_white : forall P v x, ends_ws false P = true -> white v = true -> alike (P ++ v ++ x) (P ++ x).
Proof. intros P v x E W. rewrite app_assoc. apply alike_app; [apply alike_more; assumption|apply alike_refl]. Qed.
Definition lined (ls : list str) : str := flat_map (fun l => l ++ [c_nl]) ls.
Lemma body_tail : forall indent r P, white indent = true -> ends_ws false P = true ->
  alike (P ++ flat_map (fun x => (if is_nil x then [] else indent ++ x) ++ [c_nl]) r) (P ++ lined r).
Proof.
  intros indent r P W. revert P. induction r as [|x r IH]; intros P E; [apply alike_refl|]. unfold lined in *. cbn [flat_map].
  rewrite !app_assoc. eapply alike_trans; [apply IH; rewrite ends_ws_app; reflexivity|]. apply alike_app; [|apply alike_refl].
  rewrite <- !app_assoc. destruct x as [|c x]; [apply alike_refl|]. cbn [is_nil]. rewrite <- app_assoc. apply after_white; assumption.
Qed.
Lemma body_alike : forall prefix indent l r, white indent = true -> alike (footnote_body prefix indent (l :: r)) (prefix ++ lined (l :: r)).
Proof.
  intros prefix indent l r W. unfold footnote_body, lined. cbn [flat_map]. rewrite !app_assoc. apply body_tail; [exact W|].
  rewrite ends_ws_app. reflexivity.
Qed.
Lemma strip_cr_alike : forall x, alike (strip_cr x ++ [c_nl]) (x ++ [c_nl]).
Proof.
  intro x. unfold strip_cr. destruct (rev x) as [|c r] eqn:E; [apply alike_refl|]. destruct (ceq_spec c c_cr) as [->|]; [|apply alike_refl].
  rewrite <- (rev_involutive x), E. cbn [rev]. rewrite <- app_assoc. apply alike_app; [apply alike_refl|]. reflexivity.
Qed.
Lemma lines_alike : forall s cur P, (cur = [] -> s = [] -> ends_ws false P = true) -> alike (P ++ lined (lines_aux cur s)) (P ++ rev cur ++ s ++ [c_nl]).
Proof.
  induction s as [|c s IH]; intros cur P H; cbn [lines_aux].
  - destruct cur as [|d cur]; cbn [is_nil].
    + cbn [lined flat_map rev app]. rewrite app_nil_r. apply alike_sym. apply alike_more; [apply H; reflexivity|reflexivity].
    + unfold lined. cbn [flat_map]. rewrite app_nil_r. apply alike_refl.
  - destruct (ceq_spec c c_nl) as [->|].
    + change (lined (strip_cr (rev cur) :: lines_aux [] s)) with ((strip_cr (rev cur) ++ [c_nl]) ++ lined (lines_aux [] s)). rewrite app_assoc.
      eapply alike_trans; [apply IH; intros; rewrite !ends_ws_app; reflexivity|]. cbn [rev app]. 
      replace (P ++ rev cur ++ c_nl :: s ++ [c_nl]) with ((P ++ (rev cur ++ [c_nl])) ++ s ++ [c_nl]) by (rewrite <- !app_assoc; reflexivity).
      apply alike_app; [|apply alike_refl]. apply alike_app; [apply alike_refl|apply strip_cr_alike].
    + eapply alike_trans; [apply IH; discriminate|]. cbn [rev]. rewrite <- !app_assoc. apply alike_refl.
Qed.
Lemma note_lines_alike : forall fw cw ws first cur P, cur <> [] -> Forall (fun x => x <> []) ws ->
  alike (P ++ lined (footnote_lines U fw cw first cur ws)) (P ++ cur ++ flat_map (fun x => c_sp :: x) ws ++ [c_nl]).
Proof.
  induction ws as [|x ws IH]; intros first cur P N F; cbn [footnote_lines]; (destruct cur as [|c cur]; [contradiction|]); cbn [is_nil].
  - unfold lined. cbn [flat_map app]. rewrite app_nil_r. apply alike_refl.
  - apply Forall_cons_iff in F. destruct F as [X F]. destruct (fits _ _).
    + eapply alike_trans; [apply IH; [discriminate|exact F]|]. cbn [flat_map]. rewrite <- !app_assoc. apply alike_refl.
    + match goal with |- context[lined ((c :: cur) :: ?l)] => change (lined ((c :: cur) :: l)) with (((c :: cur) ++ [c_nl]) ++ lined l) end.
      rewrite app_assoc. eapply alike_trans; [apply IH; [exact X|exact F]|]. cbn [flat_map].
      replace (P ++ (c :: cur) ++ ((c_sp :: x) ++ flat_map (fun x => c_sp :: x) ws) ++ [c_nl]) with ((P ++ (c :: cur) ++ [c_sp]) ++ x ++ flat_map (fun x => c_sp :: x) ws ++ [c_nl])
        by (rewrite <- !app_assoc; reflexivity).
      apply alike_app; [|apply alike_refl]. apply alike_app; [apply alike_refl|]. apply alike_app; [apply alike_refl|reflexivity].
Qed.
Lemma words_full : forall s cur, Forall (fun x => x <> []) (split_ws_aux cur s).
Proof.
  induction s as [|c s IH]; intro cur; cbn [split_ws_aux].
  - destruct cur as [|d cur]; [constructor|]. constructor; [|constructor]. cbn [rev]. destruct (rev cur); discriminate.
  - destruct (is_ws c); [|apply IH]. destruct cur as [|d cur]; [apply IH|]. constructor; [|apply IH]. cbn [rev]. destruct (rev cur); discriminate.
Qed.
Definition note_head (f : footnote) : str := lit "[^" ++ fn_name f ++ lit "]: ".
Lemma head_ends : forall f, ends_ws false (note_head f) = true.
Proof. intro f. unfold note_head. rewrite !ends_ws_app. reflexivity. Qed.
(** What a footnote says. *)
Definition note_says (f : footnote) : str :=
  if fn_has_blocks f then (if is_nil (fn_content f) then [] else note_head f ++ fn_content f ++ [c_nl])
  else match split_whitespace (replace_char c_nul [c_sp] (fn_content f)) with
       | [] => note_head f ++ [c_nl]
       | x :: r => note_head f ++ x ++ flat_map (fun x => c_sp :: x) r ++ [c_nl]
       end.
Lemma says_shows : forall q f t, footnote_text U q checks f = Ok t -> empty t = (fn_has_blocks f && is_nil (fn_content f)).
Proof.
  intros q f t E. destruct (WidthProof.core_footnote_text quotes U checks q f t E) as [(H1 & H2 & ->)|(H1 & _ & H3)]; [rewrite H1, H2; reflexivity|].
  change (empty t) with (WidthProof.white t). rewrite H3. destruct (fn_has_blocks f); [|reflexivity]. destruct (fn_content f); [exfalso; apply H1; reflexivity|reflexivity].
Qed.
Lemma footnote_says : forall q f t, footnote_text U q checks f = Ok t -> alike t (note_says f).
Proof.
  intros q f t E. unfold footnote_text in E. unfold note_says. fold (note_head f) in E. destruct (fn_has_blocks f).
  - assert (t = footnote_body (note_head f) (spaces (byte_len (note_head f))) (lines (fn_content f))) as -> by (cbv zeta in E; congruence). clear E.
    destruct (fn_content f) as [|c r] eqn:C; [apply alike_refl|]. cbn [is_nil]. rewrite <- C.
    destruct (lines (fn_content f)) as [|l ls] eqn:L.
    { exfalso. rewrite C in L. unfold lines in L. cbn [lines_aux] in L. destruct (ceq c c_nl); [discriminate L|]. clear - L. revert L. generalize (@nil char). revert c.
      induction r as [|d r IH]; intros c cur; cbn [lines_aux]; [discriminate|]. destruct (ceq d c_nl); [discriminate|]. apply IH. }
    eapply alike_trans; [apply body_alike; apply white_spaces|]. rewrite <- L. unfold lines. apply lines_alike. intros _ _. apply head_ends.
  - destruct (sub_usize checks (line_width q) _) as [fw|]; [|discriminate E]. cbn [rbind] in E.
    destruct (sub_usize checks (line_width q) _) as [cw|]; [|discriminate E]. cbn [rbind] in E. cbv zeta in E.
    set (s := replace_char c_nul [c_sp] (fn_content f)) in *. pose proof (words_full s []) as F. change (split_ws_aux [] s) with (split_whitespace s) in F.
    destruct (split_whitespace s) as [|x ws].
    + cbn [is_nil] in E. match type of E with Ok ?x = _ => replace t with x by congruence end. apply alike_refl.
    + cbn [is_nil] in E. match type of E with Ok ?x = _ => replace t with x by congruence end. cbn [footnote_lines is_nil].
      apply Forall_cons_iff in F. destruct F as [X F]. pose proof (note_lines_alike fw cw ws true x (note_head f) X F) as H.
      destruct (footnote_lines U fw cw true x ws) as [|l ls] eqn:L.
      * exfalso. clear - L X. revert L X. generalize true as first. revert x. induction ws as [|y ws IH]; intros x first L X; cbn [footnote_lines] in L; (destruct x as [|c x]; [contradiction|]); cbn [is_nil] in L; [discriminate L|].
        destruct (fits _ _); [|discriminate L]. eapply IH; [exact L|discriminate].
      * eapply alike_trans; [apply body_alike; apply white_spaces|]. exact H.
Qed.
(** A footnote up to the layout of its content. *)
Definition digest (f : footnote) : footnote :=
  mkFootnote (fn_name f) (if fn_has_blocks f then (if is_nil (fn_content f) then [] else squash false (fn_content f ++ [c_nl])) else fn_content f) (fn_reference_line f) (fn_has_blocks f).
Definition digest_kv (kv : str * footnote) : str * footnote := (fst kv, digest (snd kv)).
Lemma squash_some : forall x, squash false (x ++ [c_nl]) <> [].
Proof. intros [|c x]; [discriminate|]. cbn [app WordsText.squash]. destruct (gap c); discriminate. Qed.
Lemma footnote_both : forall f g t u, digest f = digest g -> footnote_text U o checks f = Ok t -> footnote_text U p checks g = Ok u -> both t u.
Proof.
  intros f g t u E T G. unfold digest in E. injection E as Nm C _ Hb. rewrite <- Hb in C.
  assert (K : fn_has_blocks f = true -> is_nil (fn_content f) = is_nil (fn_content g)).
  { intro H. rewrite H in C. destruct (fn_content f) as [|c x], (fn_content g) as [|d y]; cbn [is_nil] in *; try reflexivity; exfalso;
      first [apply (squash_some (d :: y)); symmetry; exact C|apply (squash_some (c :: x)); exact C]. }
  split.
  - eapply alike_trans; [eapply footnote_says; exact T|]. apply alike_sym. eapply alike_trans; [eapply footnote_says; exact G|].
    unfold note_says, note_head. rewrite <- Nm, <- Hb in *. destruct (fn_has_blocks f).
    + rewrite (K eq_refl) in *. destruct (is_nil (fn_content g)); [apply alike_refl|]. apply alike_app; [apply alike_refl|]. apply alike_sym; exact C.
    + rewrite C. apply alike_refl.
  - rewrite (says_shows _ _ _ T), (says_shows _ _ _ G), <- Hb. destruct (fn_has_blocks f); [rewrite K; reflexivity|reflexivity].
Qed.
Lemma footnote_panics : forall q f, footnote_text U q checks f = Panic -> checks = true.
Proof.
  intros q f E. unfold footnote_text in E. destruct (fn_has_blocks f); [discriminate|].
  destruct checks; [reflexivity|]. unfold sub_usize in E. destruct (_ <=? _); cbn [rbind] in E; (destruct (_ <=? _); cbn [rbind] in E; cbv zeta in E; destruct (is_nil _); discriminate E).
Qed.

(** ** Actions *)
Definition okc (c : ctx) : Prop :=
  white (blockquote_prefix c) = true /\ white (blockquote_outer_indent c) = true /\ white (list_item_indent c) = true.
Record near (s t : st) : Prop := mkNear {
  nr_output : both (output s) (output t);
  nr_cx : cx s = cx t;
  nr_ok : okc (cx s);
  nr_pending : pending_references s = pending_references t;
  nr_emitted : emitted_references s = emitted_references t;
  nr_skip : skip s = skip t;
  nr_warnings : warnings s = warnings t;
  nr_proper : proper_nouns s = proper_nouns t;
  nr_common : common_nouns s = common_nouns t;
  nr_calls : calls s = calls t;
  nr_codes : codes (trace s) = codes (trace t);
  nr_notes : map digest_kv (f_pending (footnotes s)) = map digest_kv (f_pending (footnotes t));
  nr_written : f_emitted (footnotes s) = f_emitted (footnotes t);
  nr_lines : f_reference_lines (footnotes s) = f_reference_lines (footnotes t);
  nr_collecting : f_collecting (footnotes s) = f_collecting (footnotes t);
  nr_current : f_current_line (footnotes s) = f_current_line (footnotes t);
  nr_refs : f_pending_references (footnotes s) = f_pending_references (footnotes t)
}.
(** With overflow checks the runs may panic at different footnotes. *)
Definition meet (x y : res st) : Prop :=
  match x, y with Ok s, Ok t => near s t | Panic, Panic => True | _, _ => checks = true end.
Definition par (a b : act) : Prop := forall s t, near s t -> meet (a s) (b t).
Ltac near_open := repeat match goal with H : near _ _ |- _ => destruct H end; cbn [set_output set_cx set_pending set_emitted set_footnotes set_skip set_warnings set_nouns
  set_calls set_trace output cx pending_references emitted_references footnotes skip warnings proper_nouns common_nouns calls trace
  f_reference_lines f_emitted f_pending f_pending_references f_collecting f_current_line] in *.
Ltac near_all := near_open; constructor; cbn [set_output set_cx set_pending set_emitted set_footnotes set_skip set_warnings set_nouns
  set_calls set_trace output cx pending_references emitted_references footnotes skip warnings proper_nouns common_nouns calls trace
  f_reference_lines f_emitted f_pending f_pending_references f_collecting f_current_line]; try congruence; try assumption.
Lemma par_nop : par nop nop.
Proof. intros s t H. exact H. Qed.
Lemma par_panic : par panic panic.
Proof. intros s t H. exact Logic.I. Qed.
Lemma par_seq : forall a a' b b', par a a' -> par b b' -> par (a ;; b) (a' ;; b').
Proof.
  intros a a' b b' A Bb s t H. unfold seqa. specialize (A s t H). destruct (a s) as [x|], (a' t) as [y|]; cbn [meet rbind] in *.
  - apply Bb. exact A.
  - destruct (b x); first [exact A|exact Logic.I].
  - destruct (b' y); first [exact A|exact Logic.I].
  - exact Logic.I.
Qed.
Lemma par_all : forall l m, Forall2 par l m -> par (all l) (all m).
Proof. intros l m H. induction H; cbn [all fold_right]; [apply par_nop|]. apply par_seq; assumption. Qed.
Lemma par_get : forall A (P : A -> A -> Prop) f k k', (forall s t, near s t -> P (f s) (f t)) -> (forall x y, P x y -> par (k x) (k' y)) ->
  par (get f k) (get f k').
Proof. intros A P f k k' F K s t H. unfold get. apply (K (f s) (f t)); [apply F; exact H|exact H]. Qed.
Lemma par_get_eq : forall A (f : st -> A) k k', (forall s t, near s t -> f s = f t) -> (forall x, par (k x) (k' x)) ->
  par (get f k) (get f k').
Proof. intros A f k k' F K. apply (par_get A eq); [exact F|]. intros x y <-. apply K. Qed.
Lemma par_cx : forall k k', (forall c, okc c -> par (k c) (k' c)) -> par (get cx k) (get cx k').
Proof. intros k k' K. apply (par_get _ (fun c d => c = d /\ okc c)); [intros s t H; split; apply H|]. intros x y [<- H]. apply K. exact H. Qed.
Lemma par_skip : forall k k', (forall c, par (k c) (k' c)) -> par (get skip k) (get skip k').
Proof. intros k k' K. apply par_get_eq; [|exact K]. intros s t H. apply H. Qed.
Lemma par_emit_alike : forall x y, both x y -> par (emit x) (emit y).
Proof. intros x y A s t H. unfold emit, upd. cbn [meet]. near_all. apply both_app; assumption. Qed.
Lemma par_emit : forall x, par (emit x) (emit x).
Proof. intro x. apply par_emit_alike. apply both_refl. Qed.
Lemma par_log : forall e e', codes [e] = codes [e'] -> par (log e) (log e').
Proof. intros e e' E s t H. unfold log, upd. cbn [meet]. near_all. rewrite !codes_app. congruence. Qed.
Lemma par_use : forall r, par (add_reference r) (add_reference r).
Proof.
  intros r s t H. unfold add_reference, upd. cbn [meet]. cbv zeta. rewrite (nr_collecting _ _ H), (nr_current _ _ H), (nr_refs _ _ H), (nr_pending _ _ H).
  destruct (f_collecting (footnotes t)); near_all; rewrite !codes_app; congruence.
Qed.
Lemma par_updc : forall f, (forall c, okc c -> okc (f c)) -> par (updc f) (updc f).
Proof. intros f F s t H. unfold updc, upd. cbn [meet]. near_all. apply F. assumption. Qed.
Lemma par_warn : forall v, par (upd (fun s => set_warnings (warnings s ++ v) s)) (upd (fun s => set_warnings (warnings s ++ v) s)).
Proof. intros v s t H. unfold upd. cbn [meet]. near_all. Qed.
Lemma par_call : forall v c, par (upd (fun s => set_calls (calls s ++ c) (set_warnings (warnings s ++ v) s)))
  (upd (fun s => set_calls (calls s ++ c) (set_warnings (warnings s ++ v) s))).
Proof. intros v c s t H. unfold upd. cbn [meet]. near_all. Qed.
Lemma par_set_skip : forall m, par (upd (set_skip m)) (upd (set_skip m)).
Proof. intros m s t H. unfold upd. cbn [meet]. near_all. Qed.
Lemma par_set_pending : forall x, par (upd (set_pending x)) (upd (set_pending x)).
Proof. intros x s t H. unfold upd. cbn [meet]. near_all. Qed.
Lemma par_set_output : forall x y, both x y -> par (upd (set_output x)) (upd (set_output y)).
Proof. intros x y A s t H. unfold upd. cbn [meet]. near_all. Qed.
Lemma par_set_emitted : forall k, par (upd (fun s => set_emitted (set_insert k (emitted_references s)) s)) (upd (fun s => set_emitted (set_insert k (emitted_references s)) s)).
Proof. intros k s t H. unfold upd. cbn [meet]. near_all. Qed.
Lemma par_nouns : forall f g, (forall s t, near s t -> f s = f t) -> (forall s t, near s t -> g s = g t) ->
  par (upd (fun s => set_nouns (f s) (g s) s)) (upd (fun s => set_nouns (f s) (g s) s)).
Proof. intros f g F G s t H. unfold upd. cbn [meet]. rewrite (F s t H), (G s t H). near_all. Qed.
Lemma par_record : forall n l, par (record_reference_line n l) (record_reference_line n l).
Proof.
  intros n l s t H. unfold record_reference_line, upd. cbn [meet]. cbv zeta. rewrite <- (nr_lines _ _ H).
  destruct (assoc_str n (f_reference_lines (footnotes s))); near_all.
Qed.
Lemma par_set_collecting : forall b l, par (set_collecting b l) (set_collecting b l).
Proof. intros b l s t H. unfold set_collecting, upd. cbn [meet]. near_all. Qed.
Lemma digest_imap : forall k v m, map digest_kv (imap_insert k v m) = imap_insert k (digest v) (map digest_kv m).
Proof.
  intros k v m. induction m as [|[k' v'] m IH]; [reflexivity|]. cbn [imap_insert map digest_kv fst snd]. destruct (seqb k k'); cbn [map]; [reflexivity|].
  rewrite IH. reflexivity.
Qed.
Lemma par_add_note : forall f g, digest f = digest g -> par (add_footnote f) (add_footnote g).
Proof.
  intros f g E s t H. unfold add_footnote, upd. cbn [meet]. near_all. rewrite !digest_imap, E. injection E as -> _ _ _. congruence.
Qed.
Definition blank_line (out : str) : str :=
  if ends_with [c_nl; c_nl] out then [] else if ends_with [c_nl] out then [c_nl] else [c_nl; c_nl].
Lemma ensure_eq : forall s, ensure_blank_line s = emit (blank_line (output s)) s.
Proof.
  intro s. unfold ensure_blank_line, get, blank_line. destruct (ends_with _ _); [|destruct (ends_with _ _); reflexivity].
  unfold nop, emit, upd. rewrite app_nil_r. destruct s; reflexivity.
Qed.
Lemma blank_line_empty : forall out, empty (blank_line out) = true.
Proof. intro out. unfold blank_line. destruct (ends_with _ _); [reflexivity|]. destruct (ends_with _ _); reflexivity. Qed.
Lemma blank_line_white : forall out, white (blank_line out) = true.
Proof. intro out. apply empty_white, blank_line_empty. Qed.
Lemma blank_line_some : forall out, ends_ws false out = false -> blank_line out <> [].
Proof.
  intros out E. unfold blank_line. destruct (ends_with [c_nl; c_nl] out) eqn:W; [|intro Z; destruct (ends_with [c_nl] out); discriminate Z].
  apply ends_with_true in W. destruct W as (z & ->). rewrite ends_ws_app in E. discriminate E.
Qed.
Lemma par_ensure : par ensure_blank_line ensure_blank_line.
Proof.
  intros s t H. rewrite !ensure_eq. unfold emit, upd. cbn [meet]. pose proof (nr_output _ _ H) as [A A2]. near_all.
  split; [|rewrite !empty_app, A2, !blank_line_empty; reflexivity].
  pose proof (alike_ends _ _ _ false A) as En. destruct (ends_ws false (output s)) eqn:E.
  - eapply alike_trans; [apply alike_more; [exact E|apply blank_line_white]|]. eapply alike_trans; [exact A|]. apply alike_sym. apply alike_more; [symmetry; exact En|apply blank_line_white].
  - apply alike_app; [exact A|]. apply alike_white; [apply blank_line_white|apply blank_line_white|apply blank_line_some; exact E|apply blank_line_some; symmetry; exact En].
Qed.
Lemma par_write_reference : forall r, par (write_reference r) (write_reference r).
Proof. intro r. unfold write_reference. apply par_seq; [apply par_log; reflexivity|]. apply par_seq; [apply par_emit|apply par_set_emitted]. Qed.
Lemma par_write_references : forall l, par (all (map write_reference l)) (all (map write_reference l)).
Proof. intro l. apply par_all. induction l; cbn [map]; constructor; [apply par_write_reference|assumption]. Qed.
Lemma par_flush_references : par flush_references flush_references.
Proof.
  unfold flush_references. apply par_get_eq; [intros s t H; apply H|]. intro q. destruct (is_nil q); [apply par_nop|].
  apply par_get_eq; [intros s t H; apply H|]. intro em. cbv zeta. apply par_seq; [apply par_set_pending|].
  destruct (is_nil _); [apply par_nop|]. apply par_seq; [apply par_ensure|apply par_write_references].
Qed.
Lemma par_flush_note_refs : forall l, par (flush_footnote_references_before l) (flush_footnote_references_before l).
Proof.
  intros l s t H. unfold flush_footnote_references_before, get. rewrite <- (nr_refs _ _ H).
  destruct (is_nil _); [exact H|]. cbv zeta. rewrite <- (nr_emitted _ _ H). unfold seqa at 1 3. unfold upd. cbn [rbind].
  match goal with |- meet ((if is_nil ?x then nop else ensure_blank_line ;; all (map write_reference ?y)) _) _ =>
    assert (R : par (if is_nil x then nop else ensure_blank_line ;; all (map write_reference y)) (if is_nil x then nop else ensure_blank_line ;; all (map write_reference y))) end.
  { destruct (is_nil _); [apply par_nop|]. apply par_seq; [apply par_ensure|apply par_write_references]. }
  apply R. near_all.
Qed.
Lemma par_write_footnote : forall f g, digest f = digest g -> par (write_footnote U o checks f) (write_footnote U p checks g).
Proof.
  intros f g E. unfold write_footnote. destruct (footnote_text U o checks f) as [t|] eqn:T, (footnote_text U p checks g) as [u|] eqn:G.
  - apply par_seq; [apply par_log; reflexivity|]. apply par_seq; [apply par_emit_alike; eapply footnote_both; eassumption|].
    intros s v H. unfold upd. cbn [meet]. cbv zeta. near_all. injection E as -> _ _ _. congruence.
  - intros s v H. unfold panic. assert (checks = true) as Ck by (eapply footnote_panics; exact G). exact Ck.
  - intros s v H. unfold panic. assert (checks = true) as Ck by (eapply footnote_panics; exact T). exact Ck.
  - apply par_panic.
Qed.
Lemma digest_tl : forall f g l m, map digest (f :: l) = map digest (g :: m) -> digest f = digest g /\ map digest l = map digest m.
Proof. intros f g l m E. split; [exact (f_equal (hd (digest f)) E)|exact (f_equal (@tl _) E)]. Qed.
Lemma par_write_footnotes : forall l m, map digest l = map digest m ->
  par (all (map (write_footnote U o checks) l)) (all (map (write_footnote U p checks) m)).
Proof.
  induction l as [|f l IH]; intros [|g m] E; try discriminate; [apply par_nop|]. apply digest_tl in E. destruct E as [E1 E2].
  cbn [map all fold_right]. apply par_seq; [apply par_write_footnote; exact E1|]. apply IH. exact E2.
Qed.
Lemma numeric_digest : forall l, map (fun x => (fst x, digest (snd x))) (numeric_of note_num l) = numeric_of note_num (map digest l).
Proof.
  induction l as [|f l IH]; [reflexivity|]. unfold numeric_of in *. cbn [flat_map map]. rewrite map_app, IH. f_equal.
  unfold note_num. cbn [digest fn_name]. destruct (extract_numeric_footnote_name (fn_name f)); reflexivity.
Qed.
Lemma sort_digest : forall l : list (N * footnote), map (fun x => (fst x, digest (snd x))) (sort_by_key l)
  = sort_by_key (map (fun x => (fst x, digest (snd x))) l).
Proof.
  induction l as [|x l IH]; [reflexivity|]. cbn [sort_by_key fold_right map]. fold (sort_by_key l).
  change (fold_right insert_by_key [] (map (fun x => (fst x, digest (snd x))) l)) with (sort_by_key (map (fun x => (fst x, digest (snd x))) l)).
  rewrite <- IH. generalize (sort_by_key l) as m. induction m as [|y m IHm]; [reflexivity|]. cbn [insert_by_key map fst].
  destruct (fst x <=? fst y)%N; cbn [map]; [reflexivity|]. rewrite IHm. reflexivity.
Qed.
Lemma flush_order_digest : forall l, map digest (flush_order note_num l) = flush_order note_num (map digest l).
Proof.
  intro l. unfold flush_order. rewrite <- numeric_digest, map_length. destruct (_ <? 2); [reflexivity|]. rewrite map_app. f_equal.
  - unfold regular_of. apply filter_map_comm. reflexivity.
  - rewrite <- sort_digest, !map_map. reflexivity.
Qed.
Lemma reinsert_digest : forall l m, map digest_kv (fold_left (fun m kv => imap_insert (fst kv) (snd kv) m) l m)
  = fold_left (fun m kv => imap_insert (fst kv) (snd kv) m) (map digest_kv l) (map digest_kv m).
Proof. induction l as [|kv l IH]; intro m; [reflexivity|]. cbn [fold_left map]. rewrite IH, digest_imap. reflexivity. Qed.
Lemma par_flush_notes : forall l, par (flush_footnotes_before U o checks l) (flush_footnotes_before U p checks l).
Proof.
  intros l s t A. unfold flush_footnotes_before, get.
  assert (P : map digest_kv (f_pending (footnotes s)) = map digest_kv (f_pending (footnotes t))) by apply A.
  assert (E : f_emitted (footnotes s) = f_emitted (footnotes t)) by apply A.
  assert (N : is_nil (f_pending (footnotes s)) = is_nil (f_pending (footnotes t)))
    by (destruct (f_pending (footnotes s)), (f_pending (footnotes t)); try discriminate; reflexivity).
  rewrite <- N. destruct (is_nil _); [exact A|]. clear N. rewrite <- E.
  set (g := fun kv : str * footnote => negb (mem (fst kv) (f_emitted (footnotes s)))).
  assert (L : map digest_kv (filter g (f_pending (footnotes s))) = map digest_kv (filter g (f_pending (footnotes t))))
    by (rewrite !(filter_map_comm _ _ digest_kv g g) by reflexivity; rewrite P; reflexivity).
  set (l1 := filter g (f_pending (footnotes s))) in *. set (l2 := filter g (f_pending (footnotes t))) in *. clearbody l1 l2.
  set (d := fun kv : str * footnote => due l (fn_reference_line (snd kv))).
  assert (D : map digest (map snd (filter d l1)) = map digest (map snd (filter d l2))).
  { rewrite !map_map. rewrite <- !(map_map digest_kv snd). rewrite !(filter_map_comm _ _ digest_kv d d) by reflexivity. rewrite L. reflexivity. }
  assert (K : map digest_kv (filter (fun kv => negb (d kv)) l1) = map digest_kv (filter (fun kv => negb (d kv)) l2)).
  { rewrite !(filter_map_comm _ _ digest_kv (fun kv => negb (d kv)) (fun kv => negb (d kv))) by reflexivity. rewrite L. reflexivity. }
  set (e1 := map snd (filter d l1)) in *. set (e2 := map snd (filter d l2)) in *.
  change (fun kv : str * footnote => negb (due l (fn_reference_line (snd kv)))) with (fun kv => negb (d kv)).
  set (k1 := filter (fun kv => negb (d kv)) l1) in *. set (k2 := filter (fun kv => negb (d kv)) l2) in *. clearbody e1 e2 k1 k2.
  assert (N : is_nil e1 = is_nil e2) by (destruct e1, e2; try discriminate; reflexivity).
  rewrite <- N. unfold seqa at 1 3. unfold upd. cbn [rbind].
  assert (R : par (if is_nil e1 then nop else ensure_blank_line ;; all (map (write_footnote U o checks) (flush_order note_num e1)))
                  (if is_nil e1 then nop else ensure_blank_line ;; all (map (write_footnote U p checks) (flush_order note_num e2)))).
  { destruct (is_nil e1); [apply par_nop|]. apply par_seq; [apply par_ensure|]. apply par_write_footnotes. rewrite !flush_order_digest, D. reflexivity. }
  apply R. near_all. unfold reinsert. rewrite !reinsert_digest, K. reflexivity.
Qed.
Lemma par_flush_all : forall l, par (flush_all U o checks l) (flush_all U p checks l).
Proof.
  intro l. unfold flush_all. apply par_seq; [apply par_flush_notes|]. apply par_seq; [apply par_flush_references|apply par_flush_note_refs].
Qed.

(** Collectors do not look at the width. *)
Lemma same_inline : collect_inline U ENT p src = collect_inline U ENT o src.
Proof. reflexivity. Qed.
Lemma same_text : collect_text U ENT p src = collect_text U ENT o src.
Proof. reflexivity. Qed.
Lemma par_events : forall evs, par (all (map do_event evs)) (all (map do_event evs)).
Proof.
  intro evs. apply par_all. induction evs as [|e evs IH]; cbn [map]; constructor; [|exact IH]. destruct e as [r|x]; cbn [do_event]; [apply par_use|apply par_log; reflexivity].
Qed.
Lemma par_inline : forall v k k', (forall x evs, v = Ok (x, evs) -> par (k x) (k' x)) -> par (inline v k) (inline v k').
Proof. intros [[x e]|] k k' K; cbn [inline]; [|apply par_panic]. apply par_seq; [apply par_events|eapply K; reflexivity]. Qed.
Lemma par_code : forall f, par (code_act f) (code_act f).
Proof.
  intro f. unfold code_act. apply par_get_eq; [intros s t H; f_equal; apply H|].
  intro n. destruct (f n) as [text eff]. apply par_seq; [apply par_call|]. apply par_seq; [apply par_log; reflexivity|apply par_emit].
Qed.

(** Children. *)
Definition kpar (k k' : kids) : Prop := Forall2 (fun x y => fst x = fst y /\ par (snd x) (snd y)) k k'.
Lemma kpar_fst : forall k k', kpar k k' -> map fst k = map fst k'.
Proof. intros k k' H. induction H as [|x y k k' [E _] H IH]; [reflexivity|]. cbn [map]. congruence. Qed.
Lemma kpar_last : forall k k', kpar k k' -> last_child k = last_child k'.
Proof.
  intros k k' H. induction H as [|[n a] [m b] k k' [E _] H IH]; [reflexivity|]. cbn [fst] in E. subst m. cbn [last_child].
  inversion H; subst; [reflexivity|]. destruct x, y. exact IH.
Qed.
Lemma par_children : forall k k', kpar k k' -> par (children_acts k) (children_acts k').
Proof. intros k k' H. apply par_all. induction H as [|x y k k' [_ R] H IH]; cbn [map]; constructor; assumption. Qed.

Ltac rs :=
  lazymatch goal with
  | |- par nop nop => apply par_nop
  | |- par panic panic => apply par_panic
  | |- par (emit ?x) (emit ?x) => apply par_emit
  | |- par (log ?x) (log ?x) => apply par_log; reflexivity
  | |- par (upd (set_skip _)) (upd (set_skip _)) => apply par_set_skip
  | |- par (flush_all _ _ _ _) (flush_all _ _ _ _) => apply par_flush_all
  | |- par (code_act _) (code_act _) => apply par_code
  | |- par (record_reference_line _ _) _ => apply par_record
  | |- par (add_reference _) _ => apply par_use
  | |- par ensure_blank_line ensure_blank_line => apply par_ensure
  | |- par (get cx _) (get cx _) => apply par_cx; intros ? ?
  | |- par (get skip _) (get skip _) => apply par_skip; intro
  | |- par (_ ;; _) (_ ;; _) => apply par_seq
  | |- par (match ?x with _ => _ end) (match ?x with _ => _ end) => destruct x
  | H : par ?a ?b |- par ?a ?b => exact H
  end.
Ltac rt := repeat rs.

Lemma white_mark : quotes = true -> white (lit "> ") = true.
Proof. intro Q. unfold WordsText.white, WordsText.gap. rewrite Q. reflexivity. Qed.
Lemma par_blockquote_children : forall k k' i pr f, kpar k k' -> par (blockquote_children i pr f k) (blockquote_children i pr f k').
Proof.
  intros k k' i pr f H. revert f. induction H as [|[n a] [m b] k k' [E R] H IH]; intro f; cbn [blockquote_children fst snd] in *; rt. apply IH.
Qed.
Lemma par_block_quote : forall k k', quotes = true -> kpar k k' -> par (block_quote k) (block_quote k').
Proof.
  intros k k' Q H. unfold block_quote. apply par_cx. intros c C. repeat apply par_seq.
  - apply par_updc. intros d (D1 & D2 & D3). split; [|split]; [apply white_app; [exact D1|apply white_mark; exact Q]|exact D3|reflexivity].
  - apply par_blockquote_children. exact H.
  - apply par_updc. intros d D. exact C.
Qed.
Lemma par_alert : forall a pos k k', quotes = true -> kpar k k' -> par (alert a pos k) (alert a pos k').
Proof.
  intros a pos k k' Q H. unfold alert. apply par_cx. intros c C. apply par_seq; [apply par_emit|]. apply par_seq; [|apply par_block_quote; assumption].
  inversion H as [|[n x] [m y] ? ? [E R] ?]; subst; [rt|]. cbn [fst] in E. subst m. rt.
Qed.
Lemma par_list : forall kind tight k k', kpar k k' -> par (list_block kind tight k) (list_block kind tight k').
Proof.
  intros kind tight k k' H. unfold list_block. rewrite (kpar_fst _ _ H). apply par_cx. intros c C. repeat apply par_seq.
  - apply par_updc. intros d D. exact D.
  - apply par_children. exact H.
  - apply par_get_eq; [intros s t A; f_equal; apply A|]. intro d. rt.
  - apply par_updc. intros d D. exact D.
Qed.
Lemma par_item_children : forall base k k' prev, kpar k k' -> par (item_children o B base prev k) (item_children p B base prev k').
Proof.
  intros base k k' prev H. revert prev. induction H as [|[n a] [m b] k k' [E R] H IH]; intro prev; [apply par_nop|]. cbn [fst snd] in *. subst m.
  cbn [item_children]. apply par_seq; [|apply IH]. cbv zeta. rt. 
Qed.
Lemma indent_ok : forall x c, white x = true -> okc c -> okc (set_item_indent x c).
Proof. intros x c H (C1 & C2 & C3). repeat split; assumption. Qed.
Lemma item_base_white : forall c base, item_base_indent o c = Ok base -> white base = true.
Proof.
  intros c base E. unfold item_base_indent in E. cbv zeta in E. destruct (in_description_details c).
  - destruct (list_depth c =? 0); [discriminate|]. injection E as <-. apply white_app; apply white_spaces.
  - destruct (1 <? list_depth c); injection E as <-; [apply white_app|]; apply white_spaces.
Qed.
Lemma par_item : forall task k k', kpar k k' -> par (list_item o B task k) (list_item p B task k').
Proof.
  intros task k k' H. unfold list_item. rewrite (kpar_last _ _ H).
  apply par_seq; [apply par_updc; intros c C; exact C|]. apply par_cx. intros c C. apply par_seq; [apply par_emit|].
  change (item_base_indent p c) with (item_base_indent o c). destruct (item_base_indent o c) as [base|] eqn:E; [|rt]. repeat apply par_seq.
  - apply par_updc. intros d D. apply indent_ok; [eapply item_base_white; exact E|exact D].
  - apply par_item_children. exact H.
  - apply par_updc. intros d D. apply indent_ok; [apply C|exact D].
  - rt.
Qed.
Definition says (n : node) : Prop := forall x evs, inline_content U ENT o src n = Ok (x, evs) -> flowing x.
Lemma white_concat : forall n, white (List.concat (repeat (lit "    ") n)) = true.
Proof. induction n as [|n IH]; [reflexivity|]. exact IH. Qed.
Lemma continuation_white : forall c, okc c -> white (paragraph_continuation o c) = true.
Proof.
  intros c (C1 & C2 & C3). unfold paragraph_continuation. cbv zeta.
  match goal with |- white (if _ then _ ++ _ ++ ?b else _) = true => assert (K : white b = true) end.
  { destruct (_ && _); [|apply white_concat]. apply white_app; [reflexivity|]. apply white_app; [apply white_spaces|apply white_concat]. }
  destruct (in_block_quote c); [|exact K]. apply white_app; [exact C2|]. apply white_app; [exact C1|exact K].
Qed.
Lemma quote_white : forall c, okc c -> white (if in_block_quote c then blockquote_outer_indent c ++ blockquote_prefix c else []) = true.
Proof. intros c (C1 & C2 & C3). destruct (in_block_quote c); [|reflexivity]. apply white_app; assumption. Qed.
Lemma par_paragraph : forall n, says n -> par (paragraph U ENT o src n) (paragraph U ENT p src n).
Proof.
  intros n Sn. unfold paragraph. cbv zeta. destruct (extract_source src (node_pos n)) as [source|]; [|rt].
  match goal with |- par (match ?x with Some _ => _ | None => _ end) _ => destruct x end; [rt|].
  change (inline_content U ENT p src n) with (inline_content U ENT o src n).
  apply par_inline. intros x evs E. apply par_cx. intros c C. pose proof (Sn x evs E) as N. destruct (list_type c).
  - change (paragraph_continuation p c) with (paragraph_continuation o c). apply par_emit_alike. rewrite (flowing_trim x N).
    apply first_both; [apply continuation_white; exact C|exact N].
  - apply par_emit_alike. apply both_app; [|apply both_refl]. apply wrap_both; [apply quote_white; exact C|exact N].
Qed.
Lemma par_heading : forall n level, par (heading U PN ENT o src n level) (heading U PN ENT p src n level).
Proof.
  intros n level. unfold heading. change (collect_text U ENT p src n) with (collect_text U ENT o src n). apply par_inline. intros x evs E.
  change (heading_output U PN p) with (heading_output U PN o). apply par_get_eq; [|intro; apply par_emit].
  intros s t H. rewrite (nr_proper _ _ H), (nr_common _ _ H). reflexivity.
Qed.
Lemma par_details_paragraph : forall quote marker child, white quote = true -> says child ->
  par (details_paragraph U ENT o src quote marker child) (details_paragraph U ENT p src quote marker child).
Proof.
  intros quote marker child Q Sn. unfold details_paragraph. apply par_seq; [apply par_emit|].
  change (inline_content U ENT p src child) with (inline_content U ENT o src child). apply par_inline. intros x evs E.
  pose proof (Sn x evs E) as N. apply par_emit_alike. apply both_app; [|apply both_refl]. rewrite (flowing_trim x N).
  apply first_both; [apply white_app; [exact Q|reflexivity]|exact N].
Qed.
Lemma par_with_item_indent : forall indent a b, white indent = true -> par a b -> par (with_item_indent indent a) (with_item_indent indent b).
Proof.
  intros indent a b H R. unfold with_item_indent. apply (par_get _ (fun x y => x = y /\ white x = true)).
  - intros s t A. split; [f_equal; apply A|apply (nr_ok _ _ A)].
  - intros x y [<- X]. repeat apply par_seq; [|exact R|]; apply par_updc; intros d D; apply indent_ok; assumption.
Qed.
Definition saying (k : kids) : Prop := Forall (fun x => node_value (fst x) = NParagraph -> says (fst x)) k.
Lemma par_details_children : forall quote k k' first, white quote = true -> kpar k k' -> saying k ->
  par (details_children U ENT o B src quote first k) (details_children U ENT p B src quote first k').
Proof.
  intros quote k k' first Q H. revert first. induction H as [|[n a] [m b] k k' [E R] H IH]; intros first Sy; [apply par_nop|]. cbn [fst snd] in *. subst m.
  apply Forall_cons_iff in Sy. destruct Sy as [S1 Sy]. cbn [fst] in S1.
  cbn [details_children]. apply par_seq; [|apply IH; exact Sy].
  destruct first; [|apply par_seq; [apply par_emit|]]; destruct (node_value n) eqn:V; rt;
    first [apply par_with_item_indent; [reflexivity|exact R] | apply par_details_paragraph; [exact Q|apply S1; reflexivity] | apply par_updc; intros d D; exact D].
Qed.
Lemma par_details : forall k k', kpar k k' -> saying k -> par (description_details U ENT o B src k) (description_details U ENT p B src k').
Proof.
  intros k k' H Sy. unfold description_details. apply par_cx. intros c C. repeat apply par_seq; [apply par_updc; intros d D; exact D| |apply par_updc; intros d D; exact D].
  apply par_details_children; [apply quote_white; exact C|exact H|exact Sy].
Qed.
Lemma par_description_list : forall k k' first, kpar k k' -> par (description_list first k) (description_list first k').
Proof.
  intros k k' first H. revert first. induction H as [|[n a] [m b] k k' [E R] H IH]; intro first; [apply par_nop|]. cbn [fst snd] in *.
  cbn [description_list]. rt; apply IH.
Qed.
Lemma par_table : forall pos aligns rows, par (table U ENT o src pos aligns rows) (table U ENT p src pos aligns rows).
Proof.
  intros pos aligns rows. change (table U ENT p src pos aligns rows) with (table U ENT o src pos aligns rows).
  unfold table. destruct (is_nil rows); [rt|]. apply par_seq; [apply par_warn|].
  destruct (table_rows U ENT o src rows) as [[x e]|]; [|rt]. apply par_seq; [apply par_events|]. rt.
Qed.
Lemma par_link : forall next n url title k k', kpar k k' -> par (link U ENT o src next n url title k) (link U ENT p src next n url title k').
Proof.
  intros next n url title k k' H. unfold link. cbv zeta. rewrite (kpar_fst _ _ H). pose proof (par_children _ _ H) as C.
  rt; apply par_inline; intros; rt.
Qed.
Lemma par_image : forall n url title, par (image U ENT o src n url title) (image U ENT p src n url title).
Proof. intros n url title. change (image U ENT p src n url title) with (image U ENT o src n url title). unfold image. apply par_inline. intros; rt. Qed.
(** Contents of footnotes: alike before a line feed. *)
Definition content (x y : str) : Prop := alike (x ++ [c_nl]) (y ++ [c_nl]) /\ empty x = empty y.
Lemma both_content : forall x y, both x y -> content x y.
Proof. intros x y [A E]. split; [apply alike_app; [exact A|apply alike_refl]|exact E]. Qed.
Lemma empty_trim : forall x, empty (trim_end x) = empty x.
Proof. intro x. rewrite !empty_trim_end, trim_end_idem. reflexivity. Qed.
Lemma content_trim : forall x y, content x y -> content (trim_end x) (trim_end y).
Proof.
  intros x y [A E]. split; [|rewrite !empty_trim; exact E]. eapply alike_trans; [apply trim_line|]. eapply alike_trans; [exact A|]. apply alike_sym. apply trim_line.
Qed.
Lemma content_nil : forall x y, content x y -> trim_end x = x -> trim_end y = y -> is_nil x = is_nil y.
Proof. intros x y [_ E] X Y. rewrite !empty_trim_end, X, Y in E. exact E. Qed.
Lemma par_single : forall a b k k', par a b -> (forall x y, content x y -> trim_end x = x -> trim_end y = y -> par (k x) (k' y)) -> par (single_block a k) (single_block b k').
Proof.
  intros a b k k' R K. unfold single_block. apply (par_get _ both); [intros s t H; apply H|]. intros x y X.
  apply par_seq; [apply par_set_output; apply both_refl|]. apply par_seq; [exact R|].
  apply (par_get _ both); [intros s t H; apply H|]. intros x' y' X'. apply par_seq; [apply par_set_output; exact X|].
  apply K; [apply content_trim; apply both_content; exact X'|apply trim_end_idem|apply trim_end_idem].
Qed.
Lemma par_footnote_blocks : forall k k' r r' first f f', kpar k k' -> content r r' -> (first = true -> r = [] /\ r' = []) ->
  (forall x y, content x y -> trim_end x = x -> trim_end y = y -> par (f x) (f' y)) ->
  par (footnote_blocks r first k f) (footnote_blocks r' first k' f').
Proof.
  intros k k' r r' first f f' H Ar Fi F. revert r r' first Ar Fi. induction H as [|[n a] [m b] k k' [E R] H IH]; intros r r' first Ar Fi; cbn [footnote_blocks].
  - apply F; [apply content_trim; exact Ar|apply trim_end_idem|apply trim_end_idem].
  - apply par_single; [exact R|]. intros x y A X Y. apply IH; [|discriminate]. rewrite <- (content_nil x y A X Y). destruct first.
    + destruct (Fi eq_refl) as [-> ->]. exact A.
    + destruct x as [|c x].
      * destruct y; [|pose proof (content_nil _ _ A X Y); discriminate]. cbn [is_nil negb andb app]. rewrite !app_nil_r. exact Ar.
      * cbn [is_nil negb andb]. destruct Ar as [A1 A2], A as [X1 X2]. split; [|rewrite !empty_app, A2, X2; reflexivity].
        rewrite <- !app_assoc. change ([c_nl; c_nl] ++ ?z) with ([c_nl] ++ [c_nl] ++ z). rewrite (app_assoc r), (app_assoc r'). apply alike_app; [exact A1|].
        apply alike_app; [apply alike_refl|exact X1].
Qed.
Lemma digest_alike : forall name x y line, content x y -> trim_end x = x -> trim_end y = y -> digest (mkFootnote name x line true) = digest (mkFootnote name y line true).
Proof.
  intros name x y line A X Y. unfold digest. cbn [fn_name fn_content fn_reference_line fn_has_blocks]. rewrite (content_nil x y A X Y), (proj1 A). reflexivity.
Qed.
Lemma par_footnote_definition : forall name cs k k', kpar k k' ->
  par (footnote_definition U ENT o src name cs k) (footnote_definition U ENT p src name cs k').
Proof.
  intros name cs k k' H. unfold footnote_definition. apply par_get_eq.
  - intros s t A. rewrite (nr_lines _ _ A). reflexivity.
  - intro line. cbv zeta. apply par_seq; [apply par_set_collecting|].
    destruct (footnote_has_blocks cs).
    + apply par_footnote_blocks; [exact H|split; reflexivity|auto|]. intros x y A X Y. apply par_seq; [apply par_set_collecting|].
      apply par_add_note. apply digest_alike; assumption.
    + change (collect_inline U ENT p src) with (collect_inline U ENT o src). apply par_inline. intros x evs E.
      apply par_seq; [apply par_set_collecting|apply par_add_note; reflexivity].
Qed.
Lemma par_output_trailing : forall cs first, par (output_trailing first cs) (output_trailing first cs).
Proof. induction cs as [|c cs IH]; intro first; cbn [output_trailing]; [rt|]. destruct (node_value c); rt; apply IH. Qed.
Lemma par_document_block : forall prev child a b, par a b ->
  par (document_block U o src checks prev child a) (document_block U p src checks prev child b).
Proof. intros prev child a b R. unfold document_block. cbv zeta. rt. Qed.
Lemma par_directive : forall prev child literal d, par (directive_act U o checks prev child literal d) (directive_act U p checks prev child literal d).
Proof.
  intros prev child literal d. unfold directive_act. cbv zeta.
  destruct d; rt; apply par_nouns; intros s t H; rewrite ?(nr_proper _ _ H), ?(nr_common _ _ H); reflexivity.
Qed.
Lemma par_disable_file : forall child literal, par (disable_file U o src ends_nl checks child literal) (disable_file U p src ends_nl checks child literal).
Proof. intros. unfold disable_file. rt. Qed.
Lemma par_document_loop : forall k k' ts prev f f', kpar k k' -> par f f' ->
  par (document_loop U o src ends_nl checks ts prev k f) (document_loop U p src ends_nl checks ts prev k' f').
Proof.
  intros k k' ts prev f f' H F. revert ts prev. induction H as [|[n a] [m b] k k' [E R] H IH]; intros ts prev; cbn [document_loop]; [exact F|].
  cbn [fst snd] in *. subst m. cbv zeta. pose proof (IH (ts - 1) (Some n)) as C.
  destruct ((ts =? 0) && is_html_block n); [exact C|]. destruct (is_footnote_def n); [exact C|].
  assert (D : par (document_block U o src checks prev n a ;; document_loop U o src ends_nl checks (ts - 1) (Some n) k f)
                  (document_block U p src checks prev n b ;; document_loop U p src ends_nl checks (ts - 1) (Some n) k' f'))
    by (apply par_seq; [apply par_document_block; exact R|exact C]).
  destruct (node_value n); try exact D. destruct (directive_of n) as [d|]; [|exact D].
  destruct d; try (apply par_seq; [apply par_directive|exact C]). apply par_disable_file.
Qed.
Lemma par_collect_lines : forall n, par (collect_reference_lines n) (collect_reference_lines n).
Proof.
  induction n as [v pos cs IH] using node_ind'. cbn [collect_reference_lines]. apply par_seq; [destruct v; rt|].
  apply par_all. apply forall2_map. exact IH.
Qed.
Lemma par_document : forall n k k', kpar k k' -> par (document U o src ends_nl checks n k) (document U p src ends_nl checks n k').
Proof.
  intros n k k' H. unfold document. cbv zeta. rewrite (kpar_fst _ _ H). destruct (check_undefined checks src n) as [ws|]; [|rt].
  apply par_seq; [apply par_warn|]. apply par_seq; [apply par_collect_lines|]. apply par_seq.
  - apply par_all. induction H as [|[m a] [m' b] k k' [E R] H IH]; cbn [map fst snd] in *; constructor; [|exact IH]. subst m'. rt.
  - apply par_document_loop; [exact H|]. apply par_seq; [apply par_flush_all|apply par_output_trailing].
Qed.
Lemma kpar_next : forall (f g : option node -> node -> act) cs, Forall (fun c => forall nx, par (f nx c) (g nx c)) cs ->
  kpar (combine cs (with_next f cs)) (combine cs (with_next g cs)).
Proof. intros f g cs H. induction H; cbn [with_next combine]; constructor; cbn; auto. Qed.

Theorem par_serialize : forall n next, (has_quotes n -> quotes = true) -> flows U ENT o src n ->
  par (serialize U PN ENT o B src ends_nl checks next n) (serialize U PN ENT p B src ends_nl checks next n).
Proof.
  induction n as [v pos cs IH] using node_ind'. intros next Q Sp.
  assert (K : kpar (combine cs (with_next (serialize U PN ENT o B src ends_nl checks) cs)) (combine cs (with_next (serialize U PN ENT p B src ends_nl checks) cs))).
  { apply kpar_next. rewrite Forall_forall in *. intros c Ic nx. destruct (below v pos cs c Ic) as (X & _ & _). apply (IH c Ic).
    - intro H. apply Q, X, H.
    - intros m x evs W V E. eapply Sp; [eapply within_below; [exact Ic|exact W]|exact V|exact E]. }
  assert (QH : (v = NBlockQuote \/ exists a, v = NAlert a) -> quotes = true).
  { intro H. apply Q. exists (Node v pos cs). split; [apply within_here|exact H]. }
  assert (Sy : saying (combine cs (with_next (serialize U PN ENT o B src ends_nl checks) cs))).
  { apply Forall_forall. intros [c a] Ic. apply in_combine_l in Ic. cbn [fst]. intros V x evs E.
    eapply Sp; [eapply within_below; [exact Ic|apply within_here]|exact V|exact E]. }
  cbn [serialize]. cbv zeta.
  destruct v;
    first [ apply par_document; exact K | apply par_block_quote; [apply QH; left; reflexivity|exact K] | apply par_list; exact K
          | apply par_item; exact K | apply par_description_list; exact K | apply par_details; [exact K|exact Sy]
          | apply par_paragraph; intros x evs E; eapply Sp; [apply within_here|reflexivity|exact E] | apply par_heading | apply par_footnote_definition; exact K
          | apply par_table | apply par_link; exact K | apply par_image | apply par_alert; [apply QH; right; eexists; reflexivity|exact K] | apply par_children; exact K
          | idtac ]; unfold thematic_break; rt; first [apply par_children; exact K|apply par_emit].
Qed.
Lemma near_init : near init_st init_st.
Proof. constructor; try reflexivity; [apply both_refl|repeat split]. Qed.
End Words.
