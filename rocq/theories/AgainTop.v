(** Two runs on documents, the second on what the first wrote (C45). *)
From Coq Require Import Bool Arith NArith Lia ZifyBool ZifyNat ZifyN String List.
From Verif Require Import Base BaseFacts WrapModel WrapProof OptsModel CodeModel HeadingModel TableModel AstModel StateModel InlineModel WarnModel SerModel SpecState
  SpecDoc SpecNotes SpecCode SpecHeading SpecRefs SpecWrap SpecBlocks SpecEnd SpecStructure SpecAgain StateProof PropsState SerFacts EndProof CodeProof BlocksProof ParaProof NestProof LeafProof
  PropsWrap PropsBlocks StructProof StructDesc StructList AgainProof PropsAgain AgainDoc.
From Verif Require NoteProof DocProof PropsDoc.
Import ListNotations.

Lemma Forall2_rev : forall X Y (R : X -> Y -> Prop) l m, Forall2 R l m -> Forall2 R (rev l) (rev m).
Proof. intros X Y R l m H. induction H; [constructor|]. cbn [rev]. apply Forall2_app; [assumption|constructor; [assumption|constructor]]. Qed.
Lemma Forall2_skipn : forall X Y (R : X -> Y -> Prop) n l m, Forall2 R l m -> Forall2 R (skipn n l) (skipn n m).
Proof. intros X Y R n. induction n as [|n IH]; intros l m H; [exact H|]. destruct H; [constructor|]. cbn [skipn]. apply IH. assumption. Qed.
Lemma Forall2_len : forall X Y (R : X -> Y -> Prop) l m, Forall2 R l m -> List.length l = List.length m.
Proof. intros X Y R l m H. induction H; [reflexivity|]. cbn [List.length]. f_equal. assumption. Qed.
Lemma Forall2_filter : forall X Y (R : X -> Y -> Prop) f g l m, (forall x y, R x y -> f x = g y) -> Forall2 R l m -> Forall2 R (filter f l) (filter g m).
Proof.
  intros X Y R f g l m H F. induction F as [|x y l m E F IH]; [constructor|]. cbn [filter]. rewrite (H x y E). destruct (g y); [constructor; assumption|exact IH].
Qed.
Lemma Forall2_maps : forall X Y X' Y' (R : X -> Y -> Prop) (S : X' -> Y' -> Prop) f g l m, (forall x y, R x y -> S (f x) (g y)) -> Forall2 R l m ->
  Forall2 S (map f l) (map g m).
Proof. intros X Y X' Y' R S f g l m H F. induction F; constructor; auto. Qed.

Ltac lo := unfold AgainDoc.lock in *; cbn [set_output set_cx set_pending set_emitted set_footnotes set_skip set_warnings set_nouns
  set_calls set_trace output cx pending_references emitted_references footnotes skip warnings proper_nouns common_nouns calls trace
  f_reference_lines f_emitted f_pending f_pending_references f_collecting f_current_line] in *.
Section Footnotes.
Variable near : nat -> nat -> Prop.
Variable noted : str -> Prop.
Variable mode : skip_mode.
Variable ns : list str * list str.
Variable U : Uni.
Variable o : Options.
Variable checks : bool.
Let sim := AgainDoc.sim near noted mode ns.
Let lock := AgainDoc.lock near noted mode ns.
Let same_note := AgainDoc.same_note near.

(** *** Flushing *)
Lemma sim_upd : forall P f g, (forall s t, lock s t -> lock (f s) (g t)) -> (forall s, cx (f s) = cx s) -> sim P P (upd f) (upd g).
Proof.
  intros P f g H Hc s t s' L C E. injection E as <-. eexists. split; [reflexivity|]. split; [apply H; exact L|]. rewrite Hc. exact C.
Qed.
Lemma after_upd : forall (P : ctx -> Prop) a b g s1 t s', sim P P a b -> a s1 = Ok s' -> P (cx s1) -> lock s1 (g t) ->
  exists t', (upd g ;; b) t = Ok t' /\ lock s' t' /\ P (cx s').
Proof. intros P a b g s1 t s' H E C L. destruct (H _ _ _ L C E) as (t' & E' & R). exists t'. split; [apply seqa_ok; eexists; split; [reflexivity|exact E']|exact R]. Qed.
Lemma sim_ensure : forall P, sim P P ensure_blank_line ensure_blank_line.
Proof.
  intro P. unfold ensure_blank_line. apply sim_get; [intros s t L; apply L|]. intro x.
  destruct (ends_with [c_nl; c_nl] x); [apply sim_nop|]. destruct (ends_with [c_nl] x); apply sim_emit.
Qed.
Lemma sim_write_reference : forall P r, sim P P (write_reference r) (write_reference r).
Proof.
  intros P r. unfold write_reference. eapply sim_seq; [apply sim_log|]. eapply sim_seq; [apply sim_emit|]. apply sim_upd; [|reflexivity].
  intros s t L. unfold lock in *. lo. destruct L as (L1 & L2 & L3 & -> & L). repeat (split; [assumption || reflexivity|]). exact L.
Qed.
Lemma sim_write_references : forall P l, sim P P (all (map write_reference l)) (all (map write_reference l)).
Proof. intros P l. apply sim_all. intros x I. apply in_map_iff in I. destruct I as (r & <- & _). apply sim_write_reference. Qed.
Lemma sim_flush_references : forall P, sim P P flush_references flush_references.
Proof.
  intro P. unfold flush_references. apply sim_get; [intros s t L; apply L|]. intro pending. destruct (is_nil pending); [apply sim_nop|].
  apply sim_get; [intros s t L; apply L|]. intro emitted. cbv zeta. eapply sim_seq.
  { apply sim_upd; [|reflexivity]. intros s t L. unfold lock in *. lo. destruct L as (L1 & L2 & _ & L). repeat (split; [assumption || reflexivity|]). exact L. }
  match goal with |- AgainDoc.sim _ _ _ _ _ _ (if ?x then _ else _) _ => destruct x end; [apply sim_nop|]. eapply sim_seq; [apply sim_ensure|]. apply sim_write_references.
Qed.
Lemma same_text : forall f g, same_note f g -> footnote_text U o checks f = footnote_text U o checks g.
Proof.
  intros f g (En & Eb & Ec & _). unfold footnote_text. rewrite En, <- Eb. destruct (fn_has_blocks f); [rewrite Ec; reflexivity|].
  rewrite <- !NoteProof.words_split, Ec. reflexivity.
Qed.
Lemma sim_write_footnote : forall P f g, same_note f g -> sim P P (write_footnote U o checks f) (write_footnote U o checks g).
Proof.
  intros P f g H. unfold write_footnote. rewrite (same_text _ _ H). destruct (footnote_text U o checks g) as [x|]; [|apply sim_panic].
  eapply sim_seq; [apply sim_log|]. eapply sim_seq; [apply sim_emit|]. apply sim_upd; [|reflexivity]. destruct H as (En & _). rewrite En.
  intros s t L. unfold lock in *. lo. destruct L as (L1 & L2 & L3 & L4 & L5 & L6 & L7 & L8 & A1 & A2 & A3 & A4). do 8 (split; [assumption|]).
  split; [exact A1|]. split; [exact A2|]. split; [|exact A4]. cbn [f_emitted]. rewrite A3. reflexivity.
Qed.
Lemma sim_write_footnotes : forall P l m, Forall2 same_note l m -> sim P P (all (map (write_footnote U o checks) l)) (all (map (write_footnote U o checks) m)).
Proof.
  intros P l m F. induction F as [|f g l m H F IH]; [apply sim_nop|]. cbn [map all fold_right]. eapply sim_seq; [apply sim_write_footnote; exact H|exact IH].
Qed.
Lemma reinsert_same : forall A (R : A -> A -> Prop) l m, Forall2 (same_key R) l m -> Forall2 (same_key R) (reinsert l) (reinsert m).
Proof.
  intros A R l m F. unfold reinsert. assert (G : Forall2 (same_key R) (@nil (str * A)) []) by constructor. revert G. generalize (@nil (str * A)) at 1 3.
  generalize (@nil (str * A)). induction F as [|[a x] [b y] l m [E Q] F IH]; intros u v G; [exact G|]. cbn [fold_left fst snd] in *. subst b. apply IH.
  apply insert_same; assumption.
Qed.
Lemma is_nil_same : forall X Y (R : X -> Y -> Prop) l m, Forall2 R l m -> is_nil l = is_nil m.
Proof. intros X Y R l m []; reflexivity. Qed.
Lemma flush_order_same : forall A (R : A -> A -> Prop) num l m, (forall x y, R x y -> num x = num y) -> Forall2 R l m -> Forall2 R (flush_order num l) (flush_order num m).
Proof.
  intros A R num l m H F. unfold flush_order.
  assert (Nu : Forall2 (fun x y : N * A => fst x = fst y /\ R (snd x) (snd y)) (numeric_of num l) (numeric_of num m)).
  { unfold numeric_of. induction F as [|x y l m E F IH]; [constructor|]. cbn [flat_map]. rewrite (H x y E). destruct (num y); [|exact IH].
    cbn [app]. constructor; [split; [reflexivity|exact E]|exact IH]. }
  rewrite (Forall2_len _ _ _ _ _ Nu). destruct (_ <? 2); [exact F|]. apply Forall2_app.
  - apply Forall2_filter; [|exact F]. intros x y E. rewrite (H x y E). reflexivity.
  - apply Forall2_maps with (R := fun x y : N * A => fst x = fst y /\ R (snd x) (snd y)); [intros x y E; apply E|].
    unfold sort_by_key. induction Nu as [|x y a b E Nu IH]; [constructor|]. cbn [fold_right]. revert IH.
    generalize (fold_right insert_by_key [] a) (fold_right insert_by_key [] b). clear - E. intros u v G. induction G as [|p q u v E' G IH]; cbn [insert_by_key].
    + constructor; [exact E|constructor].
    + rewrite (proj1 E), (proj1 E'). destruct (fst y <=? fst q)%N; constructor; try assumption. constructor; assumption.
Qed.
Definition sides (l l' : option nat) : Prop := forall a b, near a b -> due l a = due l' b.
Lemma sim_flush_footnotes : forall P l l', sides l l' -> sim P P (flush_footnotes_before U o checks l) (flush_footnotes_before U o checks l').
Proof.
  intros P l l' Sd s t s' L C E. unfold flush_footnotes_before, get in *. destruct (L) as (_ & _ & _ & _ & _ & _ & _ & _ & A1 & A2 & A3 & A4 & A5 & A6).
  rewrite (is_nil_same _ _ _ _ _ A1) in E. destruct (is_nil (f_pending (footnotes t))); [exact (sim_nop _ _ _ _ P s t s' L C E)|]. cbv zeta in *.
  set (live := filter _ (f_pending (footnotes s))) in E. set (live' := filter _ (f_pending (footnotes t))).
  assert (Lv : Forall2 (same_key same_note) live live').
  { apply Forall2_filter; [|exact A1]. intros x y [K _]. rewrite K, A3. reflexivity. }
  assert (Em : Forall2 same_note (map snd (filter (fun kv => due l (fn_reference_line (snd kv))) live)) (map snd (filter (fun kv => due l' (fn_reference_line (snd kv))) live'))).
  { eapply Forall2_maps with (R := same_key same_note); [intros x y K; apply K|]. apply Forall2_filter; [|exact Lv]. intros x y (_ & _ & _ & _ & K). apply Sd. exact K. }
  assert (Kp : Forall2 (same_key same_note) (filter (fun kv => negb (due l (fn_reference_line (snd kv)))) live) (filter (fun kv => negb (due l' (fn_reference_line (snd kv)))) live')).
  { apply Forall2_filter; [|exact Lv]. intros x y (_ & _ & _ & _ & K). f_equal. apply Sd. exact K. }
  match type of E with ?a _ = _ => match goal with |- exists t', ?b _ = _ /\ _ => assert (Sm : AgainDoc.lock near noted mode ns s t -> P (cx s) -> a s = Ok s' ->
     exists t', b t = Ok t' /\ lock s' t' /\ P (cx s')) end end; [|exact (Sm L C E)].
  clear L C E. intros L C E. apply seqa_ok in E. destruct E as (m & E1 & E2). injection E1 as <-.
  match type of E2 with ?a ?s1 = _ => match goal with |- exists t', (_ ;; ?b) _ = _ /\ _ => assert (Sm : sim P P a b) end end.
  { rewrite (is_nil_same _ _ _ _ _ Em). match goal with |- sim _ _ (if ?x then _ else _) _ => destruct x end; [apply sim_nop|]. eapply sim_seq; [apply sim_ensure|].
    apply sim_write_footnotes. apply flush_order_same; [|exact Em]. intros x y (K & _). rewrite K. reflexivity. }
  eapply after_upd; [exact Sm|exact E2|exact C|]. unfold lock.
  lo. destruct L as (L1 & L2 & L3 & L4 & L5 & L6 & L7 & L8 & _). do 8 (split; [assumption|]).
  split; [|repeat (split; [assumption|]); exact A6]. apply reinsert_same. exact Kp.
Qed.
Lemma sim_flush_note_references : forall P l l', sides l l' -> sim P P (flush_footnote_references_before l) (flush_footnote_references_before l').
Proof.
  intros P l l' Sd s t s' L C E. unfold flush_footnote_references_before, get in *. destruct (L) as (_ & _ & _ & L4 & _ & _ & _ & _ & A1 & A2 & A3 & A4 & A5 & A6).
  rewrite (is_nil_same _ _ _ _ _ A2) in E. destruct (is_nil (f_pending_references (footnotes t))); [exact (sim_nop _ _ _ _ P s t s' L C E)|]. cbv zeta in *.
  set (live := filter _ (f_pending_references (footnotes s))) in E. set (live' := filter _ (f_pending_references (footnotes t))).
  set (R := same_key (fun x y : reference * nat => fst x = fst y /\ near (snd x) (snd y))) in *.
  assert (Lv : Forall2 R live live').
  { apply Forall2_filter; [|exact A2]. intros x y [K _]. rewrite K, L4. reflexivity. }
  assert (Em : map (fun kv => fst (snd kv)) (filter (fun kv => due l (snd (snd kv))) live) = map (fun kv => fst (snd kv)) (filter (fun kv => due l' (snd (snd kv))) live')).
  { clear - Lv Sd. induction Lv as [|x y u v (_ & K1 & K2) F IH]; [reflexivity|]. cbn [filter]. rewrite (Sd _ _ K2). destruct (due l' (snd (snd y))); [|exact IH].
    cbn [map]. rewrite K1, IH. reflexivity. }
  assert (Kp : Forall2 R (filter (fun kv => negb (due l (snd (snd kv)))) live) (filter (fun kv => negb (due l' (snd (snd kv)))) live')).
  { apply Forall2_filter; [|exact Lv]. intros x y (_ & _ & K). f_equal. apply Sd. exact K. }
  apply seqa_ok in E. destruct E as (m & E1 & E2). injection E1 as <-. rewrite Em in E2.
  match type of E2 with ?a ?s1 = _ => assert (Sm : sim P P a a) end.
  { match goal with |- sim P P (if ?x then _ else _) _ => destruct x end; [apply sim_nop|]. eapply sim_seq; [apply sim_ensure|]. apply sim_write_references. }
  eapply after_upd; [exact Sm|exact E2|exact C|]. unfold lock.
  lo. destruct L as (L1 & L2 & L3 & _ & L5 & L6 & L7 & L8 & _). do 8 (split; [assumption|]).
  split; [exact A1|]. split; [apply reinsert_same; exact Kp|]. repeat (split; [assumption|]). exact A6.
Qed.
Lemma sim_flush_all : forall P l l', sides l l' -> sim P P (flush_all U o checks l) (flush_all U o checks l').
Proof.
  intros P l l' Sd. unfold flush_all. eapply sim_seq; [apply sim_flush_footnotes; exact Sd|].
  eapply sim_seq; [apply sim_flush_references|apply sim_flush_note_references; exact Sd].
Qed.
End Footnotes.

Section Documents.
Variable near : nat -> nat -> Prop.
Variable noted : str -> Prop.
Variable U : Uni.
Variable PN : list (str * str).
Variable ENT : str -> option str.
Variable o : Options.
Variable B : backend.
Variables src src' : list str.
Variables ends_nl ends_nl' : bool.
Variable checks : bool.
Hypothesis laws : width_laws U.
Hypothesis cols : four_columns o.
Hypothesis near0 : near 0 0.
Let ser := serialize U PN ENT o B src ends_nl checks.
Let ser' := serialize U PN ENT o B src' ends_nl' checks.
Let again := again U PN ENT o B src src'.
Let again_note := again_note U PN ENT o B src src'.
Let again_blocks := again_blocks U PN ENT o B src src' ends_nl ends_nl'.
Let lock := AgainDoc.lock near noted.
Let sim := AgainDoc.sim near noted.
Lemma init_at : ctx_at (At 0 0 0) init_ctx.
Proof. constructor; try reflexivity. split; reflexivity. Qed.
Lemma top_runs : forall mode ns n n', again ns (At 0 0 0) n n' -> forall c next next', ctx_at (At 0 0 0) c -> sim mode ns (eq c) (eq c) (ser next n) (ser' next' n').
Proof.
  intros mode ns n n' A. apply (proj1 (again_runs near noted mode ns U PN ENT o B src src' ends_nl ends_nl' checks checks laws cols n)); [|exact A].
  left. split; [reflexivity|left; reflexivity].
Qed.

(** *** Footnote definitions *)
Section Note.
Variable mode : skip_mode.
Let ns : list str * list str := ([], []).
Lemma sim_single : forall c a a' k k', sim mode ns (eq c) (eq c) a a' -> (forall x, sim mode ns (eq c) (eq c) (k x) (k' x)) ->
  sim mode ns (eq c) (eq c) (single_block a k) (single_block a' k').
Proof.
  intros c a a' k k' H K. unfold single_block. apply sim_get; [intros s t L; apply L|]. intro old.
  assert (So : forall x, sim mode ns (eq c) (eq c) (upd (set_output x)) (upd (set_output x))).
  { intro x. apply sim_upd; [|reflexivity]. intros s t L. lo. destruct L as (_ & L). split; [reflexivity|exact L]. }
  eapply sim_seq; [apply So|]. eapply sim_seq; [exact H|]. apply sim_get; [intros s t L; apply L|]. intro out. eapply sim_seq; [apply So|apply K].
Qed.
Lemma sim_footnote_blocks : forall c cs cs' f f', ctx_at (At 0 0 0) c -> Forall2 (again ns (At 0 0 0)) cs cs' -> (forall x, sim mode ns (eq c) (eq c) (f x) (f' x)) ->
  forall r first, sim mode ns (eq c) (eq c) (footnote_blocks r first (combine cs (with_next ser cs)) f) (footnote_blocks r first (combine cs' (with_next ser' cs')) f').
Proof.
  intros c cs cs' f f' C F H. induction F as [|n n' cs cs' A F IH]; intros r first; [apply H|]. cbn [with_next combine footnote_blocks].
  apply sim_single; [apply top_runs; assumption|]. intro x. apply IH.
Qed.
Lemma sim_near : forall (f : st -> nat) P Q k k', (forall s t, lock mode ns s t -> near (f s) (f t)) -> (forall x y, near x y -> sim mode ns P Q (k x) (k' y)) ->
  sim mode ns P Q (get f k) (get f k').
Proof. intros f P Q k k' F H s t s' L C E. unfold get in *. exact (H _ _ (F s t L) s t s' L C E). Qed.
Lemma sim_collecting : forall P b x y, near x y -> sim mode ns P P (set_collecting b x) (set_collecting b y).
Proof.
  intros P b x y N. unfold set_collecting. apply sim_upd; [|reflexivity]. intros s t L. lo.
  destruct L as (L1 & L2 & L3 & L4 & L5 & L6 & L7 & L8 & A1 & A2 & A3 & A4 & A5 & A6). do 8 (split; [assumption|]).
  do 3 (split; [assumption|]). split; [reflexivity|]. split; [exact N|exact A6].
Qed.
Lemma sim_add_footnote : forall P f g, same_note near f g -> sim mode ns P P (add_footnote f) (add_footnote g).
Proof.
  intros P f g N. unfold add_footnote. apply sim_upd; [|reflexivity]. intros s t L. lo.
  destruct L as (L1 & L2 & L3 & L4 & L5 & L6 & L7 & L8 & A1 & A). do 8 (split; [assumption|]).
  split; [|exact A]. destruct (N) as (-> & _). apply insert_same; assumption.
Qed.
Lemma sim_note : forall n n' c next next', again_note n n' -> (forall name, node_value n = NFootnoteDefinition name -> noted name) -> ctx_at (At 0 0 0) c ->
  sim mode ns (eq c) (eq c) (ser next n) (ser' next' n').
Proof.
  intros n n' c next next' A Nt C.
  assert (Go : forall name cs cs' p p', noted name -> footnote_has_blocks cs = footnote_has_blocks cs' ->
    (forall fin fin', (forall x x', (if footnote_has_blocks cs then x = x' else words x = words x') -> sim mode ns (eq c) (eq c) (fin x) (fin' x')) ->
      sim mode ns (eq c) (eq c)
        (if footnote_has_blocks cs then footnote_blocks [] true (combine cs (with_next ser cs)) fin
         else inline (wcat (with_next (collect_inline U ENT o src) cs)) (fun content => fin (trim content)))
        (if footnote_has_blocks cs' then footnote_blocks [] true (combine cs' (with_next ser' cs')) fin'
         else inline (wcat (with_next (collect_inline U ENT o src') cs')) (fun content => fin' (trim content)))) ->
    sim mode ns (eq c) (eq c) (ser next (Node (NFootnoteDefinition name) p cs)) (ser' next' (Node (NFootnoteDefinition name) p' cs'))).
  { intros name cs cs' p p' Nn Hb H. unfold ser, ser'. cbn [serialize]. cbv zeta. fold ser ser'. unfold footnote_definition. apply sim_near.
    { intros s t L. destruct L as (_ & _ & _ & _ & _ & _ & _ & _ & _ & _ & _ & _ & _ & K). exact (K name Nn). }
    intros x y Nxy. cbv zeta. eapply sim_seq; [apply sim_collecting; exact Nxy|]. apply H. intros z z' Hz.
    eapply sim_seq; [apply sim_collecting; exact near0|]. apply sim_add_footnote. split; [reflexivity|]. split; [exact Hb|]. split; [|exact Nxy]. exact Hz. }
  inversion A as [name p cs p' cs' x x' evs Hb Hb' Ex Ex' Ew|name p cs p' cs' Hb Hb' F]; subst n n'; apply Go; try (apply Nt; reflexivity).
  - rewrite <- NoteProof.has_blocks_iff in Hb, Hb'. destruct (footnote_has_blocks cs), (footnote_has_blocks cs'); congruence.
  - rewrite <- NoteProof.has_blocks_iff in Hb, Hb'. apply not_true_is_false in Hb. apply not_true_is_false in Hb'. rewrite Hb, Hb'.
    intros fin fin' H. rewrite Ex, Ex'. apply sim_inline. apply H. rewrite !words_trim, Ew. reflexivity.
  - apply NoteProof.has_blocks_iff in Hb, Hb'. congruence.
  - apply NoteProof.has_blocks_iff in Hb, Hb'. rewrite Hb, Hb'. intros fin fin' H. apply sim_footnote_blocks; [exact C|exact F|]. intro x. apply H. reflexivity.
Qed.
Definition notes_act (s : option node -> node -> act) (cs : list node) : act :=
  all (map (fun ca : node * act => if is_footnote_def (fst ca) then snd ca else nop) (combine cs (with_next s cs))).
Lemma sim_notes : forall c cs cs', Forall2 again_note (notes_in cs) (notes_in cs') -> (forall name, In name (note_names cs) -> noted name) -> ctx_at (At 0 0 0) c ->
  sim mode ns (eq c) (eq c) (notes_act ser cs) (notes_act ser' cs').
Proof.
  intros c cs cs' F Nt C. remember (notes_in cs) as l eqn:El. remember (notes_in cs') as l' eqn:El'. revert cs cs' El El' Nt.
  induction F as [|n n' l l' A F IH].
  - assert (Z : forall s cs, [] = notes_in cs -> notes_act s cs = notes_act s [] \/ forall t, notes_act s cs t = Ok t).
    { intros s cs E. right. unfold notes_act. induction cs as [|x cs IH]; intro t; [reflexivity|]. cbn [with_next combine map fst snd] in *. rewrite all_cons.
      unfold notes_in in E. cbn [filter] in E. destruct (node_value x) eqn:V; try discriminate; unfold is_footnote_def; rewrite V; apply (IH E). }
    intros cs cs' E E' _. destruct (Z ser cs E) as [->|Z1], (Z ser' cs' E') as [->|Z2]; intros s t s' L Cc R.
    + injection R as <-. exists t. auto.
    + injection R as <-. exists t. auto.
    + rewrite Z1 in R. injection R as <-. exists t. auto.
    + rewrite Z1 in R. injection R as <-. exists t. auto.
  - assert (Sp : forall s l n cs, n :: l = notes_in cs -> exists nx cs0, l = notes_in cs0 /\ (forall name, In name (note_names cs0) -> In name (note_names cs))
       /\ In n cs /\ forall t, notes_act s cs t = (s nx n ;; notes_act s cs0) t).
    { clear. intros s l n cs E. unfold notes_act. induction cs as [|x cs IH]; [discriminate|]. unfold notes_in in *. cbn [filter] in E.
      assert (Cs : (exists name, node_value x = NFootnoteDefinition name) \/ is_footnote_def x = false).
      { unfold is_footnote_def. destruct (node_value x); eauto. }
      destruct Cs as [[name V]|V].
      - rewrite V in E. injection E as -> ->. exists (hd_error cs), cs. split; [reflexivity|]. split; [|split; [left; reflexivity|]].
        + intros nm I. unfold note_names in *. cbn [flat_map]. apply in_or_app. right. exact I.
        + intro t. cbn [with_next combine map fst snd]. rewrite all_cons. unfold is_footnote_def at 1. rewrite V. reflexivity.
      - assert (E0 : n :: l = filter (fun c => match node_value c with NFootnoteDefinition _ => true | _ => false end) cs).
        { unfold is_footnote_def in V. destruct (node_value x); try exact E; discriminate V. }
        destruct (IH E0) as (nx & cs0 & E1 & N1 & I1 & R). exists nx, cs0. split; [exact E1|]. split; [|split; [right; exact I1|]].
        + intros nm I. unfold note_names in *. cbn [flat_map]. apply in_or_app. right. apply N1. exact I.
        + intro t. cbn [with_next combine map fst snd]. rewrite all_cons, V. apply R. }
    intros cs cs' E E' Nt. destruct (Sp ser _ _ _ E) as (nx & cs0 & E1 & N1 & I1 & R1). destruct (Sp ser' _ _ _ E') as (ny & cs0' & E1' & _ & _ & R2).
    assert (Sm : sim mode ns (eq c) (eq c) (ser nx n ;; notes_act ser cs0) (ser' ny n' ;; notes_act ser' cs0')).
    { eapply sim_seq; [apply sim_note; [exact A| |exact C]|apply IH; [exact E1|exact E1'|intros; apply Nt, N1; assumption]].
      intros name V. apply Nt. unfold note_names. apply in_flat_map. exists n. split; [exact I1|]. rewrite V. left. reflexivity. }
    intros s t s' L Cc R. rewrite R1 in R. rewrite R2. exact (Sm s t s' L Cc R).
Qed.
End Note.

(** *** The children of a document *)
Definition shape (n n' : node) : Prop :=
  heading_level n = heading_level n' /\ is_heading n = is_heading n' /\ is_front_matter n = is_front_matter n' /\ is_footnote_def n = is_footnote_def n'
  /\ is_html_block n = is_html_block n' /\ (forall l, node_value n = NHtmlBlock l <-> node_value n' = NHtmlBlock l).
Lemma shape_value : forall n n', node_value n' = node_value n -> shape n n'.
Proof. intros [v p cs] [v' p' cs'] E. cbn [node_value] in E. subst v'. repeat split; intro H; exact H. Qed.
Lemma again_shape : forall ns w n n', again ns w n n' -> shape n n' /\ is_footnote_def n = false.
Proof.
  intros ns w n n' A. inversion A; subst; (split; [|reflexivity]); do 5 (split; [reflexivity|]); intro l; cbn [node_value]; (split; [intro X; (discriminate X || exact X)|intro X; (discriminate X || exact X)]).
Qed.
Lemma note_shape : forall n n', again_note n n' -> shape n n' /\ is_footnote_def n = true.
Proof. intros n n' A. inversion A; subst; (split; [apply shape_value|]); reflexivity. Qed.
Lemma look_shape : forall n n', same_look n n' -> ~ note_definition n -> shape n n'.
Proof.
  intros n n' (H1 & H2 & H3 & H4) H5. unfold note_definition in *. unfold shape, heading_level, is_heading, is_front_matter, is_footnote_def, is_html_block.
  assert (N1 : is_footnote_def n = false) by (unfold is_footnote_def; destruct (node_value n); try reflexivity; exfalso; apply H5; eauto).
  assert (N2 : is_footnote_def n' = false) by (unfold is_footnote_def; destruct (node_value n'); try reflexivity; exfalso; apply H4; eauto).
  assert (D1 : forall l, node_value n = NHeading l -> node_value n' = NHeading l) by apply H1.
  assert (D1' : forall l, node_value n' = NHeading l -> node_value n = NHeading l) by apply H1.
  assert (D2 : forall l, node_value n = NHtmlBlock l -> node_value n' = NHtmlBlock l) by apply H2.
  assert (D2' : forall l, node_value n' = NHtmlBlock l -> node_value n = NHtmlBlock l) by apply H2.
  assert (D3 : forall l, node_value n = NFrontMatter l -> exists l', node_value n' = NFrontMatter l') by (intros l E; apply H3; eauto).
  assert (D3' : forall l, node_value n' = NFrontMatter l -> exists l', node_value n = NFrontMatter l') by (intros l E; apply H3; eauto).
  unfold is_footnote_def in N1, N2.
  split; [|split; [|split; [|split; [|split; [|exact H2]]]]].
  - destruct (node_value n) eqn:V; try (rewrite (D1 _ eq_refl); reflexivity); destruct (node_value n') eqn:V'; try reflexivity; specialize (D1' _ eq_refl); discriminate.
  - destruct (node_value n) eqn:V; try (rewrite (D1 _ eq_refl); reflexivity); destruct (node_value n') eqn:V'; try reflexivity; specialize (D1' _ eq_refl); discriminate.
  - destruct (node_value n) eqn:V; try (destruct (D3 _ eq_refl) as [? ->]; reflexivity); destruct (node_value n') eqn:V'; try reflexivity; destruct (D3' _ eq_refl); discriminate.
  - rewrite N1, N2. reflexivity.
  - destruct (node_value n) eqn:V; try (rewrite (D2 _ eq_refl); reflexivity); destruct (node_value n') eqn:V'; try reflexivity; specialize (D2' _ eq_refl); discriminate.
Qed.
Lemma shape_directive : forall n n', shape n n' -> directive_of n = directive_of n'.
Proof.
  intros n n' (_ & _ & _ & _ & H1 & H2). unfold directive_of, is_html_block in *.
  destruct (node_value n) eqn:V; try (destruct (node_value n'); try reflexivity; discriminate H1). rewrite (proj1 (H2 _) eq_refl). reflexivity.
Qed.
Lemma shape_separator : forall prev prev' n n', shape n n' ->
  match prev, prev' with None, None => True | Some a, Some b => shape a b | _, _ => False end -> block_separator prev n = block_separator prev' n'.
Proof.
  intros prev prev' n n' A Pr. destruct prev as [a|], prev' as [b|]; try contradiction; [|reflexivity]. unfold block_separator.
  destruct A as (-> & _). destruct Pr as (_ & -> & -> & _). reflexivity.
Qed.
Lemma shape_trail : forall n n', shape n n' -> (may_trail n <-> may_trail n').
Proof.
  assert (K : forall n n', shape n n' -> may_trail n -> may_trail n').
  { intros n n' S M. assert (D := shape_directive _ _ S). destruct S as (_ & _ & _ & Sn & _ & Sh). destruct M as [M|[[l M] Nd]].
    - left. apply DocProof.note_iff. rewrite <- Sn. apply DocProof.note_iff. exact M.
    - right. split; [exists l; apply Sh; exact M|]. intros d C. apply DocProof.directs_iff in C. rewrite <- D in C. apply (Nd d). apply DocProof.directs_iff. exact C. }
  intros n n' S. split; [apply K; exact S|]. apply K. destruct S as (A & B0 & C & D & E & F). repeat split; try (symmetry; assumption); apply F.
Qed.
Lemma trail_shape : forall n n' cs cs', shape n n' -> (Forall may_trail cs <-> Forall may_trail cs') -> (trails n cs <-> trails n' cs').
Proof.
  intros n n' cs cs' S F. assert (M := shape_trail _ _ S). destruct S as (_ & _ & _ & _ & _ & Sh). unfold trails, html_literal. rewrite M, F.
  split; intros ((l & H) & R); (split; [exists l; apply Sh; exact H|exact R]).
Qed.
Lemma blocks_shapes : forall m ns cs cs', again_blocks m ns cs cs' -> (Forall may_trail cs <-> Forall may_trail cs') /\ (forall n r, cs = n :: r -> exists n' r', cs' = n' :: r' /\ shape n n').
Proof.
  intros m ns cs cs' A. 
  assert (K : forall n n' cs cs', shape n n' -> (Forall may_trail cs <-> Forall may_trail cs') -> (Forall may_trail (n :: cs) <-> Forall may_trail (n' :: cs'))
     /\ (forall x r, n :: cs = x :: r -> exists n0' r', n' :: cs' = n0' :: r' /\ shape x n0')).
  { clear. intros n n' cs cs' S F. split; [|intros x r E; injection E as <- <-; eauto]. assert (M := shape_trail _ _ S).
    split; intro H; inversion H; subst; (constructor; [apply M; assumption|apply F; assumption]). }
  induction A.
  - split; [tauto|discriminate].
  - apply K; [apply note_shape; assumption|apply IHA].
  - apply K; [apply shape_value; assumption|apply IHA].
  - split; [|intros x r E; injection E as <- <-; eexists _, _; split; [reflexivity|apply shape_value; assumption]].
    assert (Q : ~ may_trail n). { intros [Q|[_ Q]]; [exact (PropsDoc.directs_not_note _ _ H Q)|exact (Q _ H)]. }
    split; intro F; inversion F; subst; exfalso; apply Q; [assumption|]. apply (shape_trail n n'); [apply shape_value; assumption|assumption].
  - apply K; [apply shape_value; assumption|apply IHA].
  - apply K; [eapply again_shape; eassumption|apply IHA].
  - apply K; [apply look_shape; [assumption|apply H]|apply IHA].
Qed.
Lemma blocks_notes : forall m ns cs cs', again_blocks m ns cs cs' -> Forall2 again_note (notes_in cs) (notes_in cs').
Proof.
  intros m ns cs cs' A.
  assert (K : forall n n' cs cs', is_footnote_def n = false -> is_footnote_def n' = false -> Forall2 again_note (notes_in cs) (notes_in cs') ->
    Forall2 again_note (notes_in (n :: cs)) (notes_in (n' :: cs'))).
  { clear. intros n n' cs cs' H H' F. unfold notes_in, is_footnote_def in *. cbn [filter]. destruct (node_value n), (node_value n'); try discriminate; exact F. }
  assert (Kv : forall n n', is_footnote_def n = false -> shape n n' -> is_footnote_def n' = false) by (intros n n' E (_ & _ & _ & <- & _); exact E).
  assert (Kn : forall n, ~ note_definition n -> is_footnote_def n = false).
  { intros n Q. destruct (is_footnote_def n) eqn:E; [|reflexivity]. exfalso. apply Q. apply DocProof.note_iff. exact E. }
  induction A.
  - constructor.
  - inversion H; subst; (constructor; [exact H|exact IHA]).
  - assert (Q : is_footnote_def n = false) by (apply Kn; eapply PropsDoc.directs_not_note; eassumption). apply K; [exact Q| |exact IHA].
    eapply Kv; [exact Q|apply shape_value; assumption].
  - assert (Q : is_footnote_def n = false) by (apply Kn; eapply PropsDoc.directs_not_note; eassumption). apply K; [exact Q| |assumption].
    eapply Kv; [exact Q|apply shape_value; assumption].
  - assert (Q : is_footnote_def n = false) by (apply Kn; intros [x X]; destruct H as [[l L] _]; unfold html_literal in L; congruence). apply K; [exact Q| |exact IHA].
    eapply Kv; [exact Q|apply shape_value; assumption].
  - assert (Q : is_footnote_def n = false) by (apply Kn; apply H). apply K; [exact Q| |exact IHA]. eapply Kv; [exact Q|eapply again_shape; eassumption].
  - assert (Q : is_footnote_def n = false) by (apply Kn; apply H). apply K; [exact Q| |exact IHA]. eapply Kv; [exact Q|apply look_shape; [assumption|apply H]].
Qed.

Definition stage : Type := skip_mode * (list str * list str).
Definition chain (c : ctx) (m m' : stage) (a b : act) : Prop := forall s t s', lock (fst m) (snd m) s t -> cx s = c -> a s = Ok s' ->
  exists t', b t = Ok t' /\ lock (fst m') (snd m') s' t' /\ cx s' = c.
Lemma sim_chain : forall c m a b, sim (fst m) (snd m) (eq c) (eq c) a b -> chain c m m a b.
Proof. intros c m a b H s t s' L C E. destruct (H s t s' L (eq_sym C) E) as (t' & E' & L' & C'). exists t'. auto. Qed.
Lemma chain_seq : forall c m1 m2 m3 a b a' b', chain c m1 m2 a b -> chain c m2 m3 a' b' -> chain c m1 m3 (a ;; a') (b ;; b').
Proof.
  intros c m1 m2 m3 a b a' b' H H' s t s' L C E. apply seqa_ok in E. destruct E as (m & E1 & E2). destruct (H _ _ _ L C E1) as (t1 & F1 & L1 & C1).
  destruct (H' _ _ _ L1 C1 E2) as (t' & F2 & L2 & C2). exists t'. split; [apply seqa_ok; exists t1; auto|auto].
Qed.
Lemma chain_skip : forall c m m' ns, chain c (m, ns) (m', ns) (upd (set_skip m')) (upd (set_skip m')).
Proof.
  intros c m m' ns s t s' L C E. injection E as <-. eexists. split; [reflexivity|]. split; [|exact C]. unfold lock in *. lo.
  destruct L as (L1 & L2 & L3 & L4 & _ & L). repeat (split; [assumption|]). split; [split; reflexivity|exact L].
Qed.
Lemma chain_emit : forall c m x, chain c m m (emit x) (emit x).
Proof. intros. apply sim_chain. apply sim_emit. Qed.
Lemma chain_get_skip : forall c m m' k k', chain c m m' (k (fst m)) (k' (fst m)) -> chain c m m' (get skip k) (get skip k').
Proof.
  intros c m m' k k' H s t s' L C E. unfold get in *. destruct (L) as (_ & _ & _ & _ & (S1 & S2) & _). rewrite S1 in E. rewrite S2. exact (H s t s' L C E).
Qed.
Lemma chain_nouns : forall c m ns f g, chain c (m, ns) (m, (f (fst ns), g (snd ns)))
  (upd (fun s => set_nouns (f (proper_nouns s)) (g (common_nouns s)) s)) (upd (fun s => set_nouns (f (proper_nouns s)) (g (common_nouns s)) s)).
Proof.
  intros c m ns f g s t s' L C E. injection E as <-. eexists. split; [reflexivity|]. split; [|exact C]. unfold lock in *. lo.
  destruct L as (L1 & L2 & L3 & L4 & L5 & (-> & ->) & (-> & ->) & L). cbn [fst snd] in *. repeat (split; [assumption || (split; reflexivity)|]). exact L.
Qed.
Definition flusher (n : node) : Prop := node_value n = NHeading 2 \/ node_value n = NHeading 3 \/ exists d, directs n d.
Definition sided (n n' : node) : Prop := flusher n -> sides near (Some (start_line (node_pos n))) (Some (start_line (node_pos n'))).
Lemma chain_flush : forall c m n n', flusher n -> sided n n' ->
  chain c m m (flush_all U o checks (Some (start_line (node_pos n)))) (flush_all U o checks (Some (start_line (node_pos n')))).
Proof. intros c m n n' F S. apply sim_chain. apply sim_flush_all. apply S. exact F. Qed.
Lemma chain_directive : forall c m prev prev' n n' l d, directs n d -> d <> DisableFile -> sided n n' ->
  match prev, prev' with None, None => True | Some a, Some b => shape a b | _, _ => False end ->
  exists m', PropsDoc.mode_of (fst m') = after_directive (PropsDoc.mode_of (fst m)) d /\ snd m' = after_nouns (snd m) d /\ chain c m m' (directive_act U o checks prev n l d) (directive_act U o checks prev' n' l d).
Proof.
  intros c [m ns0] prev prev' n n' l d D Nf Sd Pr. unfold directive_act. cbv zeta.
  assert (W : forall m, chain c m m (emit ((match prev with Some _ => [c_nl] | None => [] end) ++ l)) (emit ((match prev' with Some _ => [c_nl] | None => [] end) ++ l))).
  { intro m0. destruct prev, prev'; try contradiction; apply chain_emit. }
  assert (Fl : forall m, chain c m m (flush_all U o checks (Some (start_line (node_pos n)))) (flush_all U o checks (Some (start_line (node_pos n'))))).
  { intro m0. apply chain_flush; [right; right; exists d; exact D|exact Sd]. }
  destruct d as [| | | | | ns | ns]; try (exfalso; apply Nf; reflexivity).
  - exists (SkipNextBlock, ns0). split; [reflexivity|]. split; [reflexivity|]. eapply chain_seq; [apply Fl|]. eapply chain_seq; [apply chain_skip|apply W].
  - exists (SkipUntilSection, ns0). split; [reflexivity|]. split; [reflexivity|]. eapply chain_seq; [apply Fl|]. eapply chain_seq; [apply chain_skip|apply W].
  - exists (SkipDisabled, ns0). split; [reflexivity|]. split; [reflexivity|]. eapply chain_seq; [apply Fl|]. eapply chain_seq; [apply chain_skip|apply W].
  - exists (SkipNone, ns0). split; [reflexivity|]. split; [reflexivity|]. eapply chain_seq; [apply chain_skip|apply W].
  - exists (m, (fst ns0 ++ ns, snd ns0)). split; [reflexivity|]. split; [reflexivity|]. eapply chain_seq; [|apply W]. apply (chain_nouns c m ns0 (fun x => x ++ ns) (fun x => x)).
  - exists (m, (fst ns0, snd ns0 ++ ns)). split; [reflexivity|]. split; [reflexivity|]. eapply chain_seq; [|apply W]. apply (chain_nouns c m ns0 (fun x => x) (fun x => x ++ ns)).
Qed.
Lemma shape_section : forall n n', shape n n' -> is_section_heading n = is_section_heading n'.
Proof.
  intros n n' (H & _). unfold is_section_heading, heading_level in *. destruct (node_value n), (node_value n'); try reflexivity; try discriminate H. injection H as <-. reflexivity.
Qed.
Lemma heading_flusher : forall n k, heading_level n = Some k -> k = 2 \/ k = 3 -> flusher n.
Proof. intros n k H K. unfold heading_level in H. unfold flusher. destruct (node_value n); try discriminate. injection H as ->. destruct K as [-> | ->]; auto. Qed.
Lemma chain_block : forall c m ns prev prev' n n' a a', shape n n' -> sided n n' ->
  match prev, prev' with None, None => True | Some a, Some b => shape a b | _, _ => False end ->
  (frozen (PropsDoc.mode_of m) n = false -> forall m, chain c (m, ns) (m, ns) a a') ->
  (frozen (PropsDoc.mode_of m) n = true -> exists x, extract_source src (node_pos n) = Ok (Some x) /\ extract_source src' (node_pos n') = Ok (Some x)) ->
  exists m', PropsDoc.mode_of m' = after_block (PropsDoc.mode_of m) n /\
    chain c (m, ns) (m', ns) (document_block U o src checks prev n a) (document_block U o src' checks prev' n' a').
Proof.
  intros c m ns prev prev' n n' a a' Sh Sd Pr R X. assert (Hl : heading_level n = heading_level n') by apply Sh.
  assert (H0 : chain c (m, ns) (m, ns)
     (match heading_level n, prev with Some 2, Some _ | Some 3, Some _ => flush_all U o checks (Some (start_line (node_pos n))) | _, _ => nop end)
     (match heading_level n, prev' with Some 2, Some _ | Some 3, Some _ => flush_all U o checks (Some (start_line (node_pos n'))) | _, _ => nop end)).
  { assert (Q : forall X Y : act, chain c (m, ns) (m, ns) X Y -> chain c (m, ns) (m, ns) (match prev with Some _ => X | None => nop end) (match prev' with Some _ => Y | None => nop end)).
    { intros X0 Y0 H. destruct prev, prev'; try contradiction; [exact H|apply sim_chain, sim_nop]. }
    destruct (heading_level n) as [[|[|[|[|l]]]]|] eqn:E; try (apply sim_chain, sim_nop); apply Q; apply chain_flush; try exact Sd; eapply heading_flusher; try exact E; auto. }
  assert (Go : forall m', chain c (m, ns) (m', ns)
     (match m with SkipNone => a | SkipNextBlock => upd (set_skip SkipNone) ;; match extract_source src (node_pos n) with Panic => panic | Ok (Some source) => emit (source ++ [c_nl]) | Ok None => a end
        | SkipUntilSection => if is_section_heading n then upd (set_skip SkipNone) ;; a else match extract_source src (node_pos n) with Panic => panic | Ok (Some source) => emit (source ++ [c_nl]) | Ok None => a end
        | SkipDisabled => match extract_source src (node_pos n) with Panic => panic | Ok (Some source) => emit (source ++ [c_nl]) | Ok None => a end end)
     (match m with SkipNone => a' | SkipNextBlock => upd (set_skip SkipNone) ;; match extract_source src' (node_pos n') with Panic => panic | Ok (Some source) => emit (source ++ [c_nl]) | Ok None => a' end
        | SkipUntilSection => if is_section_heading n' then upd (set_skip SkipNone) ;; a' else match extract_source src' (node_pos n') with Panic => panic | Ok (Some source) => emit (source ++ [c_nl]) | Ok None => a' end
        | SkipDisabled => match extract_source src' (node_pos n') with Panic => panic | Ok (Some source) => emit (source ++ [c_nl]) | Ok None => a' end end) ->
     chain c (m, ns) (m', ns) (document_block U o src checks prev n a) (document_block U o src' checks prev' n' a')).
  { intros m' H. unfold document_block. rewrite (shape_separator _ _ _ _ Sh Pr), <- Hl. eapply chain_seq; [exact H0|]. eapply chain_seq; [apply chain_emit|]. apply chain_get_skip. exact H. }
  rewrite <- (shape_section _ _ Sh) in Go.
  assert (V : frozen (PropsDoc.mode_of m) n = true -> forall m, chain c (m, ns) (m, ns)
     (match extract_source src (node_pos n) with Panic => panic | Ok (Some source) => emit (source ++ [c_nl]) | Ok None => a end)
     (match extract_source src' (node_pos n') with Panic => panic | Ok (Some source) => emit (source ++ [c_nl]) | Ok None => a' end)).
  { intros Fz m0. destruct (X Fz) as (x & E1 & E2). rewrite E1, E2. apply chain_emit. }
  destruct m; cbn [PropsDoc.mode_of] in *.
  - exists SkipNone. split; [reflexivity|]. apply Go. apply R. reflexivity.
  - exists SkipNone. split; [reflexivity|]. apply Go. eapply chain_seq; [apply chain_skip|]. apply V. reflexivity.
  - unfold after_block. rewrite PropsDoc.section_frozen in *. destruct (is_section_heading n); cbn [negb] in *.
    + exists SkipNone. split; [reflexivity|]. apply Go. eapply chain_seq; [apply chain_skip|]. apply R. reflexivity.
    + exists SkipUntilSection. split; [reflexivity|]. apply Go. apply V. reflexivity.
  - exists SkipDisabled. split; [reflexivity|]. apply Go. apply V. reflexivity.
Qed.
Lemma file_rest : forall l l' (b : bool) a a', skipn a' l' = skipn a l ->
  match extract_source_from_line l b (a + 1) with Some x => emit (c_nl :: x) | None => nop end
  = match extract_source_from_line l' b (a' + 1) with Some x => emit (c_nl :: x) | None => nop end.
Proof.
  intros l l' b a a' E.
  assert (K : forall (l : list str) a, match extract_source_from_line l b (a + 1) with Some x => emit (c_nl :: x) | None => nop end
     = match skipn a l with [] => nop | r => emit (c_nl :: join [c_nl] r ++ (if b then [c_nl] else [])) end).
  { clear. intros l a. unfold extract_source_from_line. cbv zeta. replace (a + 1 - 1) with a by lia. replace (a + 1 =? 0) with false by lia. rewrite orb_false_r.
    destruct l as [|x l]; [destruct a; reflexivity|]. cbn [is_nil]. destruct (List.length (x :: l) <=? a) eqn:Q.
    - rewrite skipn_all2 by lia. reflexivity.
    - destruct (skipn a (x :: l)) as [|y r] eqn:F; [|reflexivity]. exfalso. assert (Z := skipn_length a (x :: l)). rewrite F in Z. cbn [List.length] in *. lia. }
  rewrite !K, E. reflexivity.
Qed.
Lemma chain_loop : forall m0 ns cs cs', again_blocks m0 ns cs cs' -> forall m done done' prev prev' c fin fin', PropsDoc.mode_of (fst m) = m0 -> snd m = ns -> ctx_at (At 0 0 0) c ->
  List.length done = List.length done' ->
  (forall n n', In (n, n') (combine cs cs') -> sided n n') ->
  (Forall2 shape cs cs' -> forall m, chain c m m fin fin') ->
  match prev, prev' with None, None => True | Some a, Some b => shape a b | _, _ => False end ->
  exists mf, chain c m mf
    (document_loop U o src ends_nl checks (find_trailing_html_blocks (done ++ cs) - List.length done) prev (combine cs (with_next ser cs)) fin)
    (document_loop U o src' ends_nl' checks (find_trailing_html_blocks (done' ++ cs') - List.length done') prev' (combine cs' (with_next ser' cs')) fin').
Proof.
  intros m0 ns cs cs' A. induction A as [m0 ns|m0 ns n n' cs cs' N A IH|m0 ns n n' cs cs' d D Nf V A IH|m0 ns n n' cs cs' D V Rs En Nn|m0 ns n n' cs cs' T V A IH|m0 ns n n' cs cs' Od Fz Ag A IH
    |m0 ns n n' cs cs' x Od Fz Lk X X' A IH]; intros [m ns0] done done' prev prev' c fin fin' Em Ens C Ld Sd Fn Pr.
  all: cbn [fst snd] in Em, Ens; subst ns0.
  1: { exists (m, ns). apply Fn. constructor. }
  all: cbn [with_next combine document_loop]; cbv zeta.
  all: assert (Snext : forall x y, In (x, y) (combine cs cs') -> sided x y) by (intros; apply Sd; right; assumption).
  all: assert (S1 : sided n n') by (apply Sd; left; reflexivity).
  all: assert (Len : forall (l : list node) (r : list node) x, find_trailing_html_blocks (l ++ x :: r) - List.length l - 1 = find_trailing_html_blocks ((l ++ [x]) ++ r) - List.length (l ++ [x]))
    by (intros l r x0; rewrite <- app_assoc; cbn [app]; rewrite app_length; cbn [List.length]; lia).
  all: assert (Tr : forall (l : list node) y r, (find_trailing_html_blocks (l ++ y :: r) - List.length l =? 0) && is_html_block y = true -> trails y r)
    by (intros l y r H; apply andb_true_iff in H; destruct H as [H1 H2]; apply Nat.eqb_eq in H1; apply (DocProof.trails_iff l y r H2); exact H1).
  all: assert (Tr' : forall (l : list node) y r, ~ trails y r -> (find_trailing_html_blocks (l ++ y :: r) - List.length l =? 0) && is_html_block y = false)
    by (intros l y r H; match goal with |- ?b = false => destruct b eqn:Q end; [exfalso; apply H; eapply Tr; exact Q|reflexivity]).
  all: assert (Trt : forall (l : list node) y r, trails y r -> (find_trailing_html_blocks (l ++ y :: r) - List.length l =? 0) && is_html_block y = true)
    by (intros l y r H; assert (Hh : is_html_block y = true) by (destruct H as [[q Hq] _]; unfold is_html_block; unfold html_literal in Hq; rewrite Hq; reflexivity);
        apply (DocProof.trails_iff l y r Hh) in H; rewrite H, Hh; reflexivity).
  all: assert (Ld' : List.length (done ++ [n]) = List.length (done' ++ [n'])) by (rewrite !app_length; cbn [List.length]; lia).
  all: assert (Mn : forall z, is_footnote_def z = true -> ~ trails z cs /\ ~ trails z cs')
    by (intros z Hz; split; intros [[q Hq] _]; unfold is_footnote_def, html_literal in *; rewrite Hq in Hz; discriminate).
  - (* a footnote *)
    destruct (note_shape _ _ N) as [S F]. assert (F' : is_footnote_def n' = true) by (destruct S as (_ & _ & _ & <- & _); exact F).
    rewrite (Tr' done n cs), (Tr' done' n' cs') by (apply Mn; assumption). rewrite F, F', !Len. apply IH; try assumption; try reflexivity.
    intros G. apply Fn. constructor; [exact S|exact G].
  - (* a directive *)
    assert (S := shape_value _ _ V). assert (Nn : ~ note_definition n) by (eapply PropsDoc.directs_not_note; exact D).
    assert (F : is_footnote_def n = false) by (destruct (is_footnote_def n) eqn:Q; [exfalso; apply Nn; apply DocProof.note_iff; exact Q|reflexivity]).
    assert (F' : is_footnote_def n' = false) by (destruct S as (_ & _ & _ & <- & _); exact F).
    assert (Tn : ~ trails n cs) by (eapply PropsDoc.directs_not_trails; exact D).
    assert (Tn' : ~ trails n' cs') by (rewrite <- (trail_shape n n' cs cs' S (proj1 (blocks_shapes _ _ _ _ A))); exact Tn).
    rewrite (Tr' done n cs Tn), (Tr' done' n' cs' Tn'), F, F', !Len. rewrite <- (shape_directive _ _ S). assert (Dd := D). apply DocProof.directs_iff in Dd. rewrite Dd, V.
    destruct (node_value n) eqn:Vn; try (unfold directive_of in Dd; rewrite Vn in Dd; discriminate).
    destruct (chain_directive c (m, ns) prev prev' n n' literal d D Nf S1 Pr) as (m1 & E1 & N1 & Ch).
    destruct (IH m1 (done ++ [n]) (done' ++ [n']) (Some n) (Some n') c fin fin') as (mf & R); try assumption.
    + cbn [fst] in E1. rewrite E1, Em. reflexivity.
    + intros G. apply Fn. constructor; [exact S|exact G].
    + exists mf. destruct d; try (exfalso; apply Nf; reflexivity); exact (chain_seq _ _ _ _ _ _ _ _ Ch R).
  - (* disable-file *)
    assert (S := shape_value _ _ V). assert (Nd : ~ note_definition n) by (eapply PropsDoc.directs_not_note; exact D).
    assert (F : is_footnote_def n = false) by (destruct (is_footnote_def n) eqn:Q; [exfalso; apply Nd; apply DocProof.note_iff; exact Q|reflexivity]).
    assert (F' : is_footnote_def n' = false) by (destruct S as (_ & _ & _ & <- & _); exact F).
    assert (D' : directs n' DisableFile) by (apply DocProof.directs_iff; rewrite <- (shape_directive _ _ S); apply DocProof.directs_iff; exact D).
    rewrite (Tr' done n cs (PropsDoc.directs_not_trails _ _ _ D)), (Tr' done' n' cs' (PropsDoc.directs_not_trails _ _ _ D')), F, F'.
    assert (Dd := D). apply DocProof.directs_iff in Dd. assert (Dd' := D'). apply DocProof.directs_iff in Dd'. rewrite Dd, Dd', V.
    destruct (node_value n) eqn:Vn; try (unfold directive_of in Dd; rewrite Vn in Dd; discriminate). exists (m, ns). unfold disable_file. rewrite En.
    eapply chain_seq; [apply chain_flush; [right; right; exists DisableFile; exact D|exact S1]|]. eapply chain_seq; [apply chain_emit|].
    rewrite (file_rest src src' ends_nl _ (end_line (node_pos n')) Rs). destruct (extract_source_from_line src' ends_nl _); [apply chain_emit|apply sim_chain, sim_nop].
  - (* trailing HTML *)
    assert (S := shape_value _ _ V). assert (T' := T). rewrite (trail_shape n n' cs cs' S (proj1 (blocks_shapes _ _ _ _ A))) in T'.
    rewrite (Trt done n cs T), (Trt done' n' cs' T'), !Len. apply IH; try assumption; try reflexivity. intros G. apply Fn. constructor; [exact S|exact G].
  - (* a block *)
    destruct (again_shape _ _ _ _ Ag) as [S F]. assert (F' : is_footnote_def n' = false) by (destruct S as (_ & _ & _ & <- & _); exact F).
    destruct Od as (_ & Tn & Nd). assert (Tn' : ~ trails n' cs') by (rewrite <- (trail_shape n n' cs cs' S (proj1 (blocks_shapes _ _ _ _ A))); exact Tn).
    assert (D : directive_of n = None) by (destruct (directive_of n) as [d|] eqn:Q; [exfalso; apply (Nd d); apply DocProof.directs_iff; exact Q|reflexivity]).
    rewrite (Tr' done n cs Tn), (Tr' done' n' cs' Tn'), F, F', !Len. rewrite <- (shape_directive _ _ S), D.
    destruct (chain_block c m ns prev prev' n n' (ser (hd_error cs) n) (ser' (hd_error cs') n') S S1 Pr) as (m1 & E1 & Ch).
    + intros _ m2. apply sim_chain. cbn [fst snd]. apply top_runs; assumption.
    + rewrite Em, Fz. discriminate.
    + destruct (IH (m1, ns) (done ++ [n]) (done' ++ [n']) (Some n) (Some n') c fin fin') as (mf & R); try assumption; try reflexivity.
      * cbn [fst]. rewrite E1, Em. reflexivity.
      * intros G. apply Fn. constructor; [exact S|exact G].
      * exists mf. assert (R2 := chain_seq _ _ _ _ _ _ _ _ Ch R). destruct (node_value n), (node_value n'); exact R2.
  - (* kept *)
    assert (S := look_shape _ _ Lk (proj1 Od)). destruct Od as (Nn & Tn & Nd).
    assert (F : is_footnote_def n = false) by (destruct (is_footnote_def n) eqn:Q; [exfalso; apply Nn; apply DocProof.note_iff; exact Q|reflexivity]).
    assert (F' : is_footnote_def n' = false) by (destruct S as (_ & _ & _ & <- & _); exact F).
    assert (Tn' : ~ trails n' cs') by (rewrite <- (trail_shape n n' cs cs' S (proj1 (blocks_shapes _ _ _ _ A))); exact Tn).
    assert (D : directive_of n = None) by (destruct (directive_of n) as [d|] eqn:Q; [exfalso; apply (Nd d); apply DocProof.directs_iff; exact Q|reflexivity]).
    rewrite (Tr' done n cs Tn), (Tr' done' n' cs' Tn'), F, F', !Len. rewrite <- (shape_directive _ _ S), D.
    destruct (chain_block c m ns prev prev' n n' (ser (hd_error cs) n) (ser' (hd_error cs') n') S S1 Pr) as (m1 & E1 & Ch).
    + rewrite Em, Fz. discriminate.
    + intros _. exists x. auto.
    + destruct (IH (m1, ns) (done ++ [n]) (done' ++ [n']) (Some n) (Some n') c fin fin') as (mf & R); try assumption; try reflexivity.
      * cbn [fst]. rewrite E1, Em. reflexivity.
      * intros G. apply Fn. constructor; [exact S|exact G].
      * exists mf. assert (R2 := chain_seq _ _ _ _ _ _ _ _ Ch R). destruct (node_value n), (node_value n'); exact R2.
Qed.
Lemma trailing_shape : forall cs cs', Forall2 shape cs cs' -> forall seen start, trailing_html cs seen start = trailing_html cs' seen start.
Proof.
  intros cs cs' F. induction F as [|c c' cs cs' S F IH]; intros seen start; [reflexivity|]. cbn [trailing_html].
  destruct S as (_ & _ & _ & Sn & Sb & Sh). unfold is_footnote_def, is_html_block in *.
  destruct (node_value c) eqn:V; try (rewrite (proj1 (Sh _) eq_refl); destruct (parse_directive _); [reflexivity|apply IH]);
    destruct (node_value c') eqn:V'; try discriminate Sn; try discriminate Sb; try reflexivity; apply IH.
Qed.
Lemma sim_output_trailing : forall mode ns P cs cs', Forall2 shape cs cs' -> forall first, sim mode ns P P (output_trailing first cs) (output_trailing first cs').
Proof.
  intros mode ns P cs cs' F. induction F as [|c c' cs cs' S F IH]; intro first; [apply sim_nop|]. cbn [output_trailing].
  destruct S as (_ & _ & _ & _ & Sb & Sh). unfold is_html_block in *.
  destruct (node_value c) eqn:V; try (rewrite (proj1 (Sh _) eq_refl); eapply sim_seq; [destruct first; [apply sim_ensure|apply sim_nop]|]; eapply sim_seq; [apply sim_emit|apply IH]);
    destruct (node_value c') eqn:V'; try discriminate Sb; apply IH.
Qed.
End Documents.

Lemma collect_ok : forall n s, exists s', collect_reference_lines n s = Ok s'.
Proof.
  induction n as [v p cs IH] using node_ind'. intro s. cbn [collect_reference_lines].
  assert (Al : forall s, exists s', all (map collect_reference_lines cs) s = Ok s').
  { clear - IH. induction IH as [|c cs Hc IH IHc]; intro s; [exists s; reflexivity|].
    destruct (Hc s) as (m & E1). destruct (IHc m) as (s' & E2). exists s'. cbn [map all fold_right]. apply seqa_ok. exists m. auto. }
  assert (Fst : exists m, (match v with NFootnoteReference name => record_reference_line name (start_line p) | _ => nop end) s = Ok m)
    by (destruct v; eexists; reflexivity).
  destruct Fst as (m & E1). destruct (Al m) as (s' & E2). exists s'. apply seqa_ok. exists m. auto.
Qed.
Theorem again_document : forall U PN ENT o B src src' ends_nl ends_nl' checks p cs p' cs' s ws, width_laws U -> four_columns o ->
  again_blocks U PN ENT o B src src' ends_nl ends_nl' Format ([], []) cs cs' -> same_sides cs cs' ->
  check_undefined checks src' (Node NDocument p' cs') = Ok ws ->
  serialize_root U PN ENT o B src ends_nl checks (Node NDocument p cs) = Ok s ->
  exists s', serialize_root U PN ENT o B src' ends_nl' checks (Node NDocument p' cs') = Ok s' /\ output s' = output s.
Proof.
  intros U PN ENT o B src src' ends_nl ends_nl' checks p cs p' cs' s ws W Fc A Sd Ck E. unfold serialize_root in *. cbn [serialize] in *. cbv zeta in *.
  assert (MF : forall (s : option node -> node -> act) l, map fst (combine l (with_next s l)) = l).
  { clear. intros s l. induction l as [|c l IH]; [reflexivity|]. cbn [with_next combine map fst]. rewrite IH. reflexivity. }
  unfold document in *. cbv zeta in *. rewrite MF in E. rewrite MF. rewrite Ck.
  destruct (check_undefined checks src (Node NDocument p cs)) as [ws0|]; [|discriminate].
  set (near := fun l l' : nat => forall n n', In (n, n') (combine cs cs') -> flusher n -> due (Some (start_line (node_pos n))) l = due (Some (start_line (node_pos n'))) l').
  set (noted := fun name => In name (note_names cs)).
  assert (near0 : near 0 0) by (intros n n' _ _; reflexivity).
  apply seqa_ok in E. destruct E as (m0 & E0 & E). injection E0 as E0. apply seqa_ok in E. destruct E as (m1 & E1 & E).
  destruct (collect_ok (Node NDocument p' cs') (set_warnings (warnings init_st ++ ws) init_st)) as (t1 & F1).
  assert (L : AgainDoc.lock near noted SkipNone ([], []) m1 t1 /\ cx m1 = init_ctx).
  { rewrite <- E0 in E1. apply NoteProof.collect_lines_set in E1. apply NoteProof.collect_lines_set in F1. unfold NoteProof.lines_set in *.
    cbn [footnotes set_warnings init_st init_footnotes f_reference_lines f_pending f_emitted f_collecting f_current_line f_pending_references] in E1, F1.
    subst m1 t1. split; [|reflexivity]. lo. do 8 (split; [try reflexivity; split; reflexivity|]).
    split; [constructor|]. split; [constructor|]. split; [reflexivity|]. split; [reflexivity|]. split; [exact near0|].
    intros name Nm n n' I Fl. cbn [f_reference_lines].
    assert (Ln : forall refs, NoteProof.line_of (fold_left NoteProof.record_in refs []) name = NoteProof.line_of refs name).
    { intro refs. unfold NoteProof.line_of. rewrite NoteProof.record_lookups. reflexivity. }
    rewrite !Ln. assert (Q := Sd n n' name _ _ I Fl Nm (NoteProof.first_line_of name _) (NoteProof.first_line_of name _)).
    change (references (Node NDocument p cs)) with (flat_map references cs). change (references (Node NDocument p' cs')) with (flat_map references cs').
    unfold due, in_time in *. apply eq_iff_eq_true. rewrite !andb_true_iff, !Nat.ltb_lt. exact Q. }
  destruct L as (L & Cx).
  apply seqa_ok in E. destruct E as (m2 & E2 & E3).
  destruct (sim_notes near noted U PN ENT o B src src' ends_nl ends_nl' checks W Fc near0 SkipNone init_ctx cs cs' (blocks_notes U PN ENT o B src src' ends_nl ends_nl' _ _ _ _ A)
    (fun name H => H) init_at m1 t1 m2 L (eq_sym Cx) E2) as (t2 & F2 & L2 & Cx2).
  destruct (chain_loop near noted U PN ENT o B src src' ends_nl ends_nl' checks W Fc Format ([], []) cs cs' A (SkipNone, ([], [])) [] [] None None init_ctx
    (flush_all U o checks None ;; output_trailing true (skipn (find_trailing_html_blocks cs) cs))
    (flush_all U o checks None ;; output_trailing true (skipn (find_trailing_html_blocks cs') cs'))) as (mf & Ch); try reflexivity.
  - exact init_at.
  - intros n n' I Fl a b N. exact (N n n' I Fl).
  - intros F m. apply sim_chain. eapply sim_seq; [apply sim_flush_all; intros a b _; reflexivity|].
    assert (T : find_trailing_html_blocks cs = find_trailing_html_blocks cs').
    { unfold find_trailing_html_blocks. rewrite (Forall2_len _ _ _ _ _ F), (trailing_shape _ _ (Forall2_rev _ _ _ _ _ F)). reflexivity. }
    rewrite T. apply sim_output_trailing. apply Forall2_skipn. exact F.
  - cbn [app List.length] in Ch. rewrite !Nat.sub_0_r in Ch. destruct (Ch m2 t2 s L2 (eq_sym Cx2) E3) as (t3 & F3 & L3 & _).
    exists t3. split; [|symmetry; apply L3]. apply seqa_ok. exists (set_warnings (warnings init_st ++ ws) init_st). split; [reflexivity|].
    apply seqa_ok. exists t1. split; [exact F1|]. apply seqa_ok. exists t2. split; [exact F2|exact F3].
Qed.
