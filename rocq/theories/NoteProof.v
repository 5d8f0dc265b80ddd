(** Footnotes: every definition is written once. *)
From Coq Require Import Bool Arith NArith Lia ZifyBool ZifyNat ZifyN String List Permutation.
From Verif Require Import Base BaseFacts OptsModel WrapModel CodeModel TableModel HeadingModel AstModel StateModel
  InlineModel WarnModel SerModel SpecState SpecWrap WrapProof SpecContext SpecDoc SpecRefs SpecNotes StateProof PropsState SerFacts PropsOrder SerBuilt OutputProof
  DocProof PropsDoc DocRun RefProof.
Import ListNotations.

Lemma notes_app : forall a b, notes (a ++ b) = notes a ++ notes b.
Proof. intros a b. unfold notes. apply flat_map_app. Qed.
Lemma notes_notes : forall l, notes (map Footnote l) = l.
Proof. induction l as [|r l IH]; [reflexivity|]. cbn. f_equal. exact IH. Qed.
Lemma notes_defs : forall l, notes (map Def l) = [].
Proof. induction l as [|r l IH]; [reflexivity|]. exact IH. Qed.

(** ** The lines of the first references *)
Definition record_in (m : list (str * nat)) (x : str * nat) : list (str * nat) :=
  match assoc_str (fst x) m with Some _ => m | None => m ++ [x] end.
Definition line_of (m : list (str * nat)) (name : str) : nat :=
  match assoc_str name m with Some l => l | None => 0 end.
Definition known (m : list (str * nat)) (name : str) : Prop := assoc_str name m <> None.

(** [s'] is [s] but for the lines recorded. *)
Definition lines_set (s s' : st) (m : list (str * nat)) : Prop :=
  s' = set_footnotes (mkFootnotes (f_pending (footnotes s)) (f_emitted (footnotes s)) m
         (f_collecting (footnotes s)) (f_current_line (footnotes s)) (f_pending_references (footnotes s))) s.
Lemma lines_set_refl : forall s, lines_set s s (f_reference_lines (footnotes s)).
Proof. intros []. unfold lines_set, set_footnotes. cbn. destruct footnotes; reflexivity. Qed.
Lemma record_set : forall name l s s', record_reference_line name l s = Ok s' ->
  lines_set s s' (record_in (f_reference_lines (footnotes s)) (name, l)).
Proof.
  intros name l s s' E. injection E as <-. cbv zeta. unfold record_in. cbn [fst].
  destruct (assoc_str name _); [apply lines_set_refl|reflexivity].
Qed.
Lemma lines_set_trans : forall a b c m m', lines_set a b m -> lines_set b c m' -> lines_set a c m'.
Proof. intros a b c m m' -> ->. reflexivity. Qed.
Lemma lines_set_lines : forall a b m, lines_set a b m -> f_reference_lines (footnotes b) = m.
Proof. intros a b m ->. reflexivity. Qed.
Lemma collect_lines_set : forall n s s', collect_reference_lines n s = Ok s' ->
  lines_set s s' (fold_left record_in (references n) (f_reference_lines (footnotes s))).
Proof.
  induction n as [v p cs IH] using node_ind'. intros s s' E. cbn [collect_reference_lines] in E.
  apply seqa_ok in E. destruct E as (m & E1 & E2). cbn [references]. rewrite fold_left_app.
  assert (H1 : lines_set s m (fold_left record_in match v with NFootnoteReference name => [(name, start_line p)] | _ => [] end
                 (f_reference_lines (footnotes s)))).
  { destruct v; try (injection E1 as <-; apply lines_set_refl). apply record_set. exact E1. }
  set (r1 := fold_left record_in _ _) in *. clearbody r1.
  eapply lines_set_trans; [exact H1|]. rewrite <- (lines_set_lines _ _ _ H1). clear E1 H1 r1 s.
  revert m E2. induction IH as [|c cs Hc _ IHcs]; intros m E2.
  - injection E2 as <-. apply lines_set_refl.
  - cbn [map] in E2. rewrite all_cons in E2. apply seqa_ok in E2. destruct E2 as (m2 & E1 & E2).
    cbn [flat_map]. rewrite fold_left_app. pose proof (Hc _ _ E1) as H1. eapply lines_set_trans; [exact H1|].
    rewrite <- (lines_set_lines _ _ _ H1). apply IHcs. exact E2.
Qed.

Lemma assoc_app : forall A k (a b : list (str * A)), assoc_str k (a ++ b) = match assoc_str k a with Some x => Some x | None => assoc_str k b end.
Proof.
  intros A k a b. induction a as [|[k' x] a IH]; [reflexivity|]. cbn [app assoc_str]. destruct (seqb k k'); [reflexivity|exact IH].
Qed.
Lemma record_lookup : forall k m x, assoc_str k (record_in m x) =
  match assoc_str k m with Some l => Some l | None => if seqb k (fst x) then Some (snd x) else None end.
Proof.
  intros k m [n l]. unfold record_in. cbn [fst snd]. destruct (assoc_str n m) eqn:E.
  - destruct (assoc_str k m) eqn:F; [reflexivity|]. destruct (seqb k n) eqn:Q; [|reflexivity]. apply seqb_true in Q. subst. congruence.
  - rewrite assoc_app. cbn [assoc_str]. reflexivity.
Qed.
Lemma record_lookups : forall k refs m, assoc_str k (fold_left record_in refs m) =
  match assoc_str k m with Some l => Some l | None => assoc_str k refs end.
Proof.
  intro k. induction refs as [|[n l] refs IH]; intro m; cbn [fold_left]; [destruct (assoc_str k m); reflexivity|].
  rewrite IH, record_lookup. cbn [fst snd assoc_str]. destruct (assoc_str k m); [reflexivity|]. destruct (seqb k n); reflexivity.
Qed.
Lemma first_line_of : forall k refs, first_line k refs (line_of refs k).
Proof.
  intros k refs. unfold line_of. induction refs as [|[n l] refs IH]; [constructor|]. cbn [assoc_str].
  destruct (seqb k n) eqn:E; [apply seqb_true in E; subst; constructor|]. apply fl_later; [|exact IH].
  intro Q. subst. rewrite seqb_refl in E. discriminate.
Qed.
Lemma known_references : forall m n, within m n -> forall name, node_value m = NFootnoteReference name -> known (references n) name.
Proof.
  intros m n W. induction W as [|v p cs c I W IH]; intros name E.
  - destruct m as [v p cs]. cbn [node_value] in E. subst v. unfold known. cbn [references app assoc_str]. rewrite seqb_refl. discriminate.
  - specialize (IH name E). unfold known in *. cbn [references]. rewrite assoc_app.
    destruct (assoc_str name (match v with NFootnoteReference _ => _ | _ => _ end)); [discriminate|].
    apply in_split in I. destruct I as (a & b & ->). rewrite flat_map_app. cbn [flat_map]. rewrite !assoc_app.
    destruct (assoc_str name (flat_map references a)); [discriminate|]. destruct (assoc_str name (references c)); [discriminate|contradiction].
Qed.

(** ** What does not touch footnotes *)
Record same_notes (s s' : st) : Prop := {
  sn_pending : f_pending (footnotes s') = f_pending (footnotes s);
  sn_emitted : f_emitted (footnotes s') = f_emitted (footnotes s);
  sn_lines : f_reference_lines (footnotes s') = f_reference_lines (footnotes s);
  sn_notes : notes (trace s') = notes (trace s)
}.
Lemma same_notes_refl : forall s, same_notes s s.
Proof. intro s. split; reflexivity. Qed.
Lemma same_notes_trans : forall a b c, same_notes a b -> same_notes b c -> same_notes a c.
Proof. intros a b c [] []. split; congruence. Qed.

Definition quiet (names : list (str * nat)) (e : effect) : Prop :=
  match e with ENote _ => False | ELine n _ => known names n | _ => True end.
Lemma quiet0 : forall names w, warn_line w = 0 -> quiet names (EWarn w).
Proof. intros. exact I. Qed.

Ltac sn0 := split; cbn [footnotes set_footnotes set_output set_cx set_trace set_pending set_warnings set_calls set_skip set_nouns
  f_pending f_emitted f_reference_lines trace]; reflexivity.
Lemma built_quiet : forall U o checks names a, built U o checks false (quiet names) a ->
  forall s s', a s = Ok s' -> f_reference_lines (footnotes s) = names -> same_notes s s'.
Proof.
  intros U o checks names a H. induction H; intros s s' E Kn; try discriminate.
  - injection E as <-. apply same_notes_refl.
  - apply seqa_ok in E. destruct E as (m & E1 & E2). pose proof (IHbuilt1 _ _ E1 Kn) as S1.
    eapply same_notes_trans; [exact S1|]. apply (IHbuilt2 _ _ E2). rewrite (sn_lines _ _ S1). exact Kn.
  - unfold get in E. eauto.
  - injection E as <-. sn0.
  - injection E as <-. split; cbn; try reflexivity. rewrite notes_app. cbn. apply app_nil_r.
  - injection E as <-. cbv zeta. destruct (f_collecting (footnotes s)); split; cbn; try reflexivity; rewrite notes_app; cbn; apply app_nil_r.
  - injection E as <-. sn0.
  - injection E as <-. sn0.
  - injection E as <-. sn0.
  - injection E as <-. cbv zeta. cbn [quiet] in H. unfold known in H. rewrite <- Kn in H.
    destruct (assoc_str n _); [apply same_notes_refl|contradiction].
  - injection E as <-. sn0.
  - contradiction.
  - unfold single_block, get in E. apply seqa_ok in E. destruct E as (m & E1 & E).
    apply seqa_ok in E. destruct E as (m2 & E2 & E). apply seqa_ok in E. destruct E as (m3 & E3 & E4).
    injection E1 as <-. injection E3 as <-. specialize (IHbuilt _ _ E2 Kn).
    assert (S1 : same_notes s m2) by (destruct IHbuilt; split; assumption).
    specialize (H1 _ _ _ E4). cbn [footnotes set_output] in H1. rewrite (sn_lines _ _ S1) in H1. specialize (H1 Kn).
    destruct S1, H1. split; cbn [footnotes set_output trace] in *; congruence.
  - rewrite <- H0 in E. eauto.
Qed.

Section Notes.
Variable U : Uni.
Variable PN : list (str * str).
Variable ENT : str -> option str.
Variable o : Options.
Variable B : backend.
Variable src : list str.
Variable ends_nl : bool.
Variable checks : bool.
Notation ser := (serialize U PN ENT o B src ends_nl checks).

Definition knows (names : list (str * nat)) (n : node) : Prop :=
  forall m name, within m n -> node_value m = NFootnoteReference name -> known names name.
Lemma knows_child : forall names v p cs c, knows names (Node v p cs) -> In c cs -> knows names c.
Proof. intros names v p cs c H I m name W. apply H. eapply within_below; eassumption. Qed.
Lemma quiet_effects : forall names n, no_notes n -> knows names n -> effects_ok src checks (quiet names) n.
Proof.
  intros names n NN Kn m W. split; [intros ws _; apply Forall_forall; intros; exact I|].
  destruct (node_value m) eqn:V; cbn [quiet]; auto.
  - intros f _ _. apply (NN m W). exists name. exact V.
  - exact (Kn m name W V).
Qed.
Lemma quiet_serialize : forall names n next, no_document n = true -> no_notes n -> knows names n ->
  built U o checks false (quiet names) (ser next n).
Proof.
  intros names n next D NN Kn. apply built_serialize; [apply quiet0|auto|apply quiet_effects; assumption].
Qed.

(** A footnote definition adds one footnote. *)
Definition inline_all (cs : list node) : W := wcat (with_next (collect_inline U ENT o src) cs).
Lemma has_blocks_iff : forall cs, footnote_has_blocks cs = true <-> has_blocks cs.
Proof.
  intro cs. unfold footnote_has_blocks, has_blocks. rewrite orb_true_iff, existsb_exists, Nat.ltb_lt.
  assert (A : (exists x, In x cs /\ match node_value x with NCodeBlock _ _ | NBlockQuote | NList _ _ | NTable _ => true | _ => false end = true) <->
    (exists c, In c cs /\ ((exists info l, node_value c = NCodeBlock info l) \/ node_value c = NBlockQuote
        \/ (exists k t, node_value c = NList k t) \/ exists a, node_value c = NTable a))).
  { split; intros (c & I & H); exists c; split; auto.
    - destruct (node_value c); try discriminate H; eauto 6.
    - destruct H as [(i & l & ->)|[->|[(k & t & ->)|(a & ->)]]]; reflexivity. }
  rewrite A. clear A.
  assert (B0 : 1 < List.length (filter is_paragraph cs) <->
    exists a x b y c, cs = a ++ x :: b ++ y :: c /\ node_value x = NParagraph /\ node_value y = NParagraph).
  { assert (Ip : forall n, is_paragraph n = true <-> node_value n = NParagraph).
    { intros [v p l]. unfold is_paragraph. cbn [node_value]. destruct v; split; try discriminate; auto. }
    assert (One : forall l, 0 < List.length (filter is_paragraph l) -> exists b y c, l = b ++ y :: c /\ node_value y = NParagraph).
    { induction l as [|n l IH]; cbn [filter]; [cbn; lia|]. destruct (is_paragraph n) eqn:P.
      - intros _. exists [], n, l. split; [reflexivity|apply Ip; exact P].
      - intro H. destruct (IH H) as (b & y & c & -> & Q). exists (n :: b), y, c. auto. }
    split.
    - induction cs as [|n l IH]; cbn [filter]; [cbn; lia|]. destruct (is_paragraph n) eqn:P.
      + cbn [List.length]. intro H. destruct (One l ltac:(lia)) as (b & y & c & -> & Q). exists [], n, b, y, c. split; [reflexivity|]. split; [apply Ip; exact P|exact Q].
      + intro H. destruct (IH H) as (a & x & b & y & c & -> & Q). exists (n :: a), x, b, y, c. auto.
    - intros (a & x & b & y & c & -> & X & Y). rewrite filter_app. cbn [filter]. rewrite (proj2 (Ip x) X), filter_app. cbn [filter]. rewrite (proj2 (Ip y) Y).
      rewrite app_length. cbn [List.length]. rewrite app_length. cbn [List.length]. lia. }
  rewrite B0. reflexivity.
Qed.
Definition adds (name : str) (P : footnote -> Prop) (s s' : st) : Prop :=
  (exists f, fn_name f = name /\ fn_reference_line f = line_of (f_reference_lines (footnotes s)) name /\ P f
     /\ f_pending (footnotes s') = imap_insert name f (f_pending (footnotes s)))
  /\ f_emitted (footnotes s') = f_emitted (footnotes s)
  /\ f_reference_lines (footnotes s') = f_reference_lines (footnotes s)
  /\ notes (trace s') = notes (trace s).
Lemma same_adds : forall name P a b c, same_notes a b -> adds name P b c -> adds name P a c.
Proof.
  intros name P a b c [E1 E2 E3 E4] ((f & A & B0 & Pf & C) & D & E & F). rewrite E1, E3 in *. split; [exists f; auto|]. repeat split; congruence.
Qed.
Lemma finish_adds : forall name content line hb (P : footnote -> Prop) s s',
  (set_collecting false 0 ;; add_footnote (mkFootnote name content line hb)) s = Ok s' ->
  line = line_of (f_reference_lines (footnotes s)) name -> P (mkFootnote name content line hb) -> adds name P s s'.
Proof.
  intros name content line hb P s s' E Q Pf. injection E as <-. split; [|repeat split].
  exists (mkFootnote name content line hb). split; [reflexivity|]. split; [exact Q|]. split; [exact Pf|reflexivity].
Qed.
(** The blocks so far, and whether there are none. *)
Definition after_blocks (result : str) (first : bool) (ts : list str) : str :=
  if first then result ++ apart ts else result ++ flat_map (fun x : str => match x with [] => [] | _ => [c_nl; c_nl] ++ x end) ts.
Definition alone (c : node) (t : str) : Prop :=
  exists next s s', output s = [] /\ ser next c s = Ok s' /\ t = trim_end (output s').
Lemma blocks_adds : forall names name P cs result first s s' f,
  (forall ts m m', Forall2 alone cs ts -> f_reference_lines (footnotes m) = names ->
     f (trim_end (after_blocks result first ts)) m = Ok m' -> adds name P m m') ->
  Forall (fun c => forall nx, built U o checks false (quiet names) (ser nx c)) cs ->
  f_reference_lines (footnotes s) = names ->
  footnote_blocks result first (combine cs (with_next ser cs)) f s = Ok s' -> adds name P s s'.
Proof.
  intros names name P. induction cs as [|c cs IH]; intros result first s s' f Hf Hk Kn E; cbn [with_next combine footnote_blocks] in E.
  - apply (Hf []); [constructor|exact Kn|]. unfold after_blocks. destruct first; cbn [apart flat_map]; rewrite app_nil_r; exact E.
  - inversion Hk as [|? ? Hc Hk']; subst. unfold single_block, get in E. apply seqa_ok in E. destruct E as (m & E1 & E).
    apply seqa_ok in E. destruct E as (m2 & E2 & E). apply seqa_ok in E. destruct E as (m3 & E3 & E4).
    injection E1 as <-. injection E3 as <-.
    assert (S1 : same_notes (set_output [] s) m2) by (eapply built_quiet; [apply Hc|exact E2|reflexivity]).
    eapply (same_adds name P s (set_output (output s) m2)); [destruct S1; split; assumption|].
    eapply IH; [|exact Hk'| |exact E4].
    2:{ cbn [footnotes set_output]. apply (sn_lines _ _ S1). }
    intros ts y z F Ky Q. apply (Hf (trim_end (output m2) :: ts)); [|exact Ky|].
    + constructor; [|exact F]. eexists. exists (set_output [] s), m2. split; [reflexivity|]. split; [exact E2|reflexivity].
    + unfold after_blocks in *. cbn [apart flat_map] in *. destruct first; cbn [negb andb] in Q.
      * cbn [app] in Q. rewrite <- app_assoc in Q. exact Q.
      * destruct (trim_end (output m2)) as [|x r] eqn:T; cbn [is_nil negb] in Q; rewrite <- !app_assoc in Q; exact Q.
Qed.
Lemma definition_adds : forall name p cs next s s',
  forallb no_document cs = true -> Forall no_notes cs -> Forall (knows (f_reference_lines (footnotes s))) cs ->
  ser next (Node (NFootnoteDefinition name) p cs) s = Ok s' -> adds name (note_content ser inline_all cs) s s'.
Proof.
  intros name p cs next s s' D NN Kn E. cbn [serialize] in E. cbv zeta in E. unfold footnote_definition, get in E. cbv zeta in E.
  apply seqa_ok in E. destruct E as (m & E1 & E). fold (line_of (f_reference_lines (footnotes s)) name) in E, E1.
  assert (S1 : same_notes s m) by (injection E1 as <-; sn0). apply (same_adds name _ s m _ S1).
  assert (Kn1 := sn_lines _ _ S1). clear E1.
  destruct (footnote_has_blocks cs) eqn:HB.
  - eapply (blocks_adds (f_reference_lines (footnotes s))); [| |exact Kn1|exact E].
    + intros ts y z F Ky Q. apply (finish_adds _ _ _ _ _ _ _ Q); [rewrite Ky; reflexivity|].
      left. cbn [fn_has_blocks fn_content]. split; [reflexivity|]. split; [apply has_blocks_iff; exact HB|]. exists ts. split; [exact F|reflexivity].
    + clear - D NN Kn. revert D. induction NN as [|c cs H NN IH]; intro D; [constructor|]. cbn [forallb] in D. apply andb_true_iff in D. destruct D as [D1 D2].
      inversion Kn; subst. constructor; [intro; apply quiet_serialize; assumption|]. apply IH; assumption.
  - fold (inline_all cs) in E. destruct (inline_all cs) as [[x evs]|] eqn:Q; [|discriminate]. cbn [inline] in E.
    apply seqa_ok in E. destruct E as (m2 & E2 & E3).
    assert (S2 : same_notes m m2).
    { clear - E2. revert m E2. induction evs as [|e evs IH]; intros m E; [injection E as <-; apply same_notes_refl|].
      cbn [map] in E. rewrite all_cons in E. apply seqa_ok in E. destruct E as (y & E1 & E2). eapply same_notes_trans; [|apply IH; exact E2].
      destruct e; injection E1 as <-; cbv zeta; [destruct (f_collecting (footnotes m))|]; split; cbn; try reflexivity; rewrite notes_app; cbn; apply app_nil_r. }
    apply (same_adds name _ m m2 _ S2). apply (finish_adds _ _ _ _ _ _ _ E3); [rewrite (sn_lines _ _ S2), Kn1; reflexivity|].
    right. cbn [fn_has_blocks fn_content]. split; [reflexivity|]. split; [intro C; apply has_blocks_iff in C; congruence|]. eauto.
Qed.

(** ** The definitions of the document *)
Definition entries (names : list (str * nat)) (l : list (str * footnote)) : Prop :=
  Forall (fun kv => fst kv = fn_name (snd kv) /\ fn_reference_line (snd kv) = line_of names (fst kv)) l.

Lemma notes_run_adds : forall cs s s', notes_run U PN ENT o B src ends_nl checks cs s s' ->
  forallb no_document cs = true ->
  Forall (fun c => Forall no_notes (node_children c)) cs -> Forall (knows (f_reference_lines (footnotes s))) cs ->
  NoDup (map fst (f_pending (footnotes s)) ++ note_names cs) ->
  exists l, f_pending (footnotes s') = f_pending (footnotes s) ++ l /\ map fst l = note_names cs
    /\ entries (f_reference_lines (footnotes s)) l /\ Forall (fun kv => defined_by ser inline_all cs (snd kv)) l
    /\ f_emitted (footnotes s') = f_emitted (footnotes s)
    /\ f_reference_lines (footnotes s') = f_reference_lines (footnotes s)
    /\ notes (trace s') = notes (trace s) /\ output s' = output s.
Proof.
  intros cs s s' R. induction R as [s|n cs s m s' N E R IH|n cs s s' N R IH]; intros D NN Kn ND.
  - exists []. rewrite app_nil_r. repeat split; constructor.
  - cbn [forallb] in D. apply andb_true_iff in D. destruct D as [D1 D2]. inversion NN; subst. inversion Kn; subst.
    destruct N as [name V]. destruct n as [v p kids]. cbn [node_value] in V. subst v. cbn [node_children] in *.
    cbn [no_document] in D1. cbn [note_names flat_map node_value] in ND. cbn [app] in ND.
    pose proof E as E0. cbn [serialize] in E0. cbv zeta in E0. apply footnote_definition_output in E0.
    assert (Kc : Forall (knows (f_reference_lines (footnotes s))) kids).
    { apply Forall_forall. intros c I. eapply knows_child; eassumption. }
    destruct (definition_adds _ _ _ _ _ _ D1 H1 Kc E) as ((f & F1 & F2 & FC & F3) & F4 & F5 & F6).
    rewrite imap_insert_snoc in F3.
    2:{ apply NoDup_remove_2 in ND. intro I. apply ND. apply in_or_app. auto. }
    destruct IH as (l & P & M & En & Df & Em & Li & No & Ou); [exact D2|assumption|rewrite F5; assumption| |].
    { rewrite F3, map_app. cbn [map fst]. rewrite <- app_assoc. exact ND. }
    exists ((name, f) :: l). rewrite P, F3, <- app_assoc. split; [reflexivity|]. split; [cbn [map fst note_names flat_map node_value app]; rewrite M; reflexivity|].
    rewrite F5 in En. split; [constructor; [split; [symmetry; exact F1|exact F2]|exact En]|].
    split; [|repeat split; congruence]. constructor.
    + exists p, kids. cbn [snd]. rewrite F1. split; [left; reflexivity|exact FC].
    + eapply Forall_impl; [|exact Df]. intros kv (q & ks & J & C). exists q, ks. split; [right; exact J|exact C].
  - cbn [forallb] in D. apply andb_true_iff in D. destruct D as [D1 D2]. inversion NN; subst. inversion Kn; subst.
    assert (Z : note_names (n :: cs) = note_names cs).
    { unfold note_names. cbn [flat_map]. destruct (node_value n) eqn:V; try reflexivity. exfalso. apply N. exists name. exact V. }
    rewrite Z in *. destruct IH as (l & P & M & En & Df & Rest); try assumption. exists l. split; [exact P|]. split; [exact M|]. split; [exact En|].
    split; [|exact Rest]. eapply Forall_impl; [|exact Df]. intros kv (q & ks & J & C). exists q, ks. split; [right; exact J|exact C].
Qed.

(** ** Flushing *)
Definition pend (s : st) : list footnote := map snd (f_pending (footnotes s)).
Record note_inv (names : list (str * nat)) (s : st) : Prop := {
  ni_entries : entries names (f_pending (footnotes s));
  ni_keys : NoDup (map fst (f_pending (footnotes s)));
  ni_new : forall k, In k (map fst (f_pending (footnotes s))) -> ~ In k (f_emitted (footnotes s));
  ni_lines : f_reference_lines (footnotes s) = names
}.
Lemma live_all : forall names s, note_inv names s -> live_footnotes s = f_pending (footnotes s).
Proof.
  intros names s []. unfold live_footnotes. clear ni_keys0 ni_entries0. induction (f_pending (footnotes s)) as [|kv l IH]; [reflexivity|].
  cbn [filter]. destruct (mem (fst kv) (f_emitted (footnotes s))) eqn:M; cbn [negb].
  - exfalso. apply mem_true in M. apply (ni_new0 (fst kv)); [left; reflexivity|exact M].
  - f_equal. apply IH. intros k I. apply ni_new0. right. exact I.
Qed.
Lemma due_in_time : forall limit line, due limit line = true <-> in_time limit line.
Proof. intros [l|] line; cbn [due in_time]; [|tauto]. rewrite andb_true_iff, Nat.ltb_lt, Nat.ltb_lt. tauto. Qed.

Lemma words_split : forall s, words s = split_whitespace (replace_char c_nul [c_sp] s).
Proof.
  intro s. unfold words. f_equal. unfold replace_char. induction s as [|c s IH]; [reflexivity|]. cbn [map flat_map].
  change (ceq c soft) with (ceq c c_nul). destruct (ceq c c_nul); cbn [app]; f_equal; exact IH.
Qed.
Lemma word_words : forall s w, In w (split_whitespace (replace_char c_nul [c_sp] s)) -> w <> [] /\ words w = [w].
Proof.
  intro s. unfold split_whitespace.
  assert (P : forall t cur, Forall (fun c => is_ws c = false /\ c <> c_nul) cur ->
            forall w, In w (split_ws_aux cur (replace_char c_nul [c_sp] t)) -> w <> [] /\ Forall (fun c => is_ws c = false /\ c <> c_nul) w).
  { induction t as [|c t IH]; intros cur C w I; unfold replace_char in I; cbn [flat_map] in I.
    - cbn [split_ws_aux] in I. destruct cur as [|x cur]; [destruct I|]. cbn [is_nil] in I. destruct I as [<-|[]].
      split; [cbn [rev]; intro Q; apply app_eq_nil in Q; destruct Q; discriminate|apply Forall_rev; exact C].
    - fold (replace_char c_nul [c_sp] t) in I.
      assert (G : forall x, is_ws x = true -> In w (split_ws_aux cur (x :: replace_char c_nul [c_sp] t)) ->
                  w <> [] /\ Forall (fun c => is_ws c = false /\ c <> c_nul) w).
      { intros x Hx J. cbn [split_ws_aux] in J. rewrite Hx in J. destruct cur as [|y cur]; cbn [is_nil] in J; [apply (IH []); [constructor|exact J]|].
        destruct J as [<-|J]; [|apply (IH []); [constructor|exact J]].
        split; [cbn [rev]; intro Q; apply app_eq_nil in Q; destruct Q; discriminate|apply Forall_rev; exact C]. }
      destruct (ceq c c_nul) eqn:Z; cbn [app] in I; [apply (G c_sp eq_refl I)|].
      destruct (is_ws c) eqn:Wc; [exact (G c Wc I)|]. cbn [split_ws_aux] in I. rewrite Wc in I. apply (IH (c :: cur)); [|exact I].
      constructor; [|exact C]. split; [exact Wc|apply ceq_false; exact Z]. }
  intros w I. destruct (P s [] (Forall_nil _) w I) as [N F]. split; [exact N|]. rewrite words_split.
  assert (R : replace_char c_nul [c_sp] w = w).
  { clear - F. unfold replace_char. induction F as [|c w [_ H] F IH]; [reflexivity|]. cbn [flat_map]. rewrite (proj2 (ceq_false _ _) H), IH. reflexivity. }
  rewrite R. unfold split_whitespace.
  assert (S : forall w cur, Forall (fun c => is_ws c = false /\ c <> c_nul) w -> rev cur ++ w <> [] -> split_ws_aux cur w = [rev cur ++ w]).
  { clear. intros w cur F. revert cur. induction F as [|c w [H _] F IH]; intros cur N; cbn [split_ws_aux].
    - rewrite app_nil_r in *. destruct cur; [contradiction|reflexivity].
    - rewrite H, IH; cbn [rev]; rewrite <- app_assoc; [reflexivity|exact N]. }
  exact (S w [] F N).
Qed.
Lemma flat_words_lines : forall s, flat_map words (lines s) = words s.
Proof.
  intro s. unfold lines.
  assert (P : forall t cur, flat_map words (lines_aux cur t) = words (rev cur ++ t)).
  { induction t as [|c t IH]; intro cur; cbn [lines_aux].
    - destruct cur as [|x cur]; [reflexivity|]. cbn [is_nil flat_map]. rewrite !app_nil_r. reflexivity.
    - destruct (ceq_spec c c_nl) as [->|N].
      + cbn [flat_map]. rewrite IH. cbn [rev app]. rewrite words_sep by (left; reflexivity). f_equal.
        unfold strip_cr. rewrite rev_involutive. destruct cur as [|x cur]; [reflexivity|]. destruct (ceq_spec x c_cr) as [->|N]; [|reflexivity].
        cbn [rev]. symmetry. apply words_snoc_sep. left. reflexivity.
      + rewrite IH. cbn [rev]. rewrite <- app_assoc. reflexivity. }
  exact (P s []).
Qed.
Lemma footnote_lines_words : forall fw cw ws first cur,
  Forall (fun w => w <> [] /\ words w = [w]) ws ->
  flat_map words (footnote_lines U fw cw first cur ws) = words cur ++ ws.
Proof.
  intros fw cw. induction ws as [|w ws IH]; intros first cur F; cbn [footnote_lines].
  - destruct cur as [|x cur]; [reflexivity|]. cbn [is_nil flat_map]. rewrite !app_nil_r. reflexivity.
  - inversion F as [|? ? [N W] Fr]; subst. destruct cur as [|x cur]; cbn [is_nil].
    + rewrite IH, W by assumption. reflexivity.
    + destruct (SerModel.fits _ _).
      * rewrite IH by assumption. change ([c_sp] ++ w) with (c_sp :: w). rewrite words_sep by (left; reflexivity). rewrite W, <- app_assoc. reflexivity.
      * cbn [flat_map]. rewrite IH, W by assumption. reflexivity.
Qed.
Lemma body_words : forall prefix indent ls, Forall (fun c => is_ws c = true) indent -> ls <> [] ->
  exists r, footnote_body prefix indent ls = prefix ++ r /\ words r = flat_map words ls /\ exists y, r = y ++ [c_nl].
Proof.
  intros prefix indent [|l ls] Hi N; [contradiction|]. cbn [footnote_body]. eexists. split; [reflexivity|]. split.
  - cbn [app]. rewrite words_sep by (left; reflexivity). cbn [flat_map]. f_equal. clear l N.
    induction ls as [|l ls IH]; [reflexivity|]. cbn [flat_map]. rewrite <- app_assoc. cbn [app]. rewrite words_sep, IH by (left; reflexivity). f_equal.
    destruct l as [|c l]; [reflexivity|]. cbn [is_nil]. apply words_ws_l. exact Hi.
  - revert l N. induction ls as [|k ls IH] using rev_ind; intros l N; cbn [flat_map].
    + exists l. reflexivity.
    + rewrite flat_map_app. cbn [flat_map]. rewrite app_nil_r. eexists. rewrite !app_assoc. reflexivity.
Qed.
Lemma spaces_ws : forall n, Forall (fun c => is_ws c = true) (spaces n).
Proof. induction n as [|n IH]; [constructor|]. cbn. constructor; [reflexivity|exact IH]. Qed.
Lemma footnote_text_spec : forall f t, footnote_text U o checks f = Ok t ->
  note_text f t /\ (t = [] \/ exists y, t = y ++ [c_nl]).
Proof.
  intros f t E. unfold footnote_text in E. cbv zeta in E.
  assert (G : forall ls, ls <> [] -> flat_map words ls = words (fn_content f) ->
            t = footnote_body (lit "[^" ++ fn_name f ++ lit "]: ") (spaces (byte_len (lit "[^" ++ fn_name f ++ lit "]: "))) ls ->
            note_text f t /\ (t = [] \/ exists y, t = y ++ [c_nl])).
  { intros ls N W Q. destruct (body_words (lit "[^" ++ fn_name f ++ lit "]: ") (spaces (byte_len (lit "[^" ++ fn_name f ++ lit "]: "))) ls (spaces_ws _) N)
      as (r & Er & Wr & y & Ey). rewrite Er in Q. subst t. split.
    - left. exists r. split; [rewrite <- !app_assoc; reflexivity|congruence].
    - right. rewrite Ey. eexists. rewrite !app_assoc. reflexivity. }
  destruct (fn_has_blocks f) eqn:HB.
  - injection E as <-. destruct (lines (fn_content f)) as [|l ls] eqn:L.
    + split; [|left; reflexivity]. right. split; [reflexivity|]. split; [exact HB|].
      clear - L. destruct (fn_content f) as [|c r]; [reflexivity|]. exfalso. unfold lines in L. revert L. generalize (@nil char) at 1.
      generalize c. clear c. assert (P : forall t cur, cur <> [] -> lines_aux cur t <> []).
      { induction t as [|d t IH]; intros cur N; cbn [lines_aux]; [destruct cur; [contradiction|discriminate]|].
        destruct (ceq d c_nl); [discriminate|apply IH; discriminate]. }
      intros c cur. cbn [lines_aux]. destruct (ceq c c_nl); [discriminate|apply P; discriminate].
    + apply (G (l :: ls)); [discriminate| |reflexivity]. rewrite <- L. apply flat_words_lines.
  - destruct (sub_usize checks (line_width o) _) as [fw|]; [|discriminate]. cbn [rbind] in E.
    destruct (sub_usize checks (line_width o) _) as [cw|]; [|discriminate]. cbn [rbind] in E.
    destruct (split_whitespace (replace_char c_nul [c_sp] (fn_content f))) as [|w ws] eqn:Sp.
    + cbn [is_nil] in E. injection E as <-.
      split; [|right; exists (lit "[^" ++ fn_name f ++ lit "]: "); rewrite <- !app_assoc; reflexivity].
      left. exists [c_nl]. split; [rewrite <- !app_assoc; reflexivity|]. rewrite (words_split (fn_content f)), Sp. reflexivity.
    + cbn [is_nil] in E. injection E as <-.
      assert (W : flat_map words (footnote_lines U fw cw true [] (w :: ws)) = words (fn_content f)).
      { rewrite footnote_lines_words; [rewrite (words_split (fn_content f)), Sp; reflexivity|].
        apply Forall_forall. intros x I. apply (word_words (fn_content f)). rewrite Sp. exact I. }
      eapply G; [|exact W|reflexivity]. intro Q. rewrite Q, words_split, Sp in W. discriminate W.
Qed.
Lemma texts_noted : forall base fs texts text g, Forall2 (fun f t => footnote_text U o checks f = Ok t) fs texts ->
  noted base text g -> (exists y, base ++ text = y ++ [c_nl]) -> noted base (text ++ List.concat texts) (g ++ fs).
Proof.
  intros base fs texts text g F. revert text g. induction F as [|f t fs texts E F IH]; intros text g N Y; cbn [List.concat].
  - rewrite !app_nil_r. exact N.
  - destruct (footnote_text_spec f t E) as [T1 T2]. rewrite app_assoc. replace (g ++ f :: fs) with ((g ++ [f]) ++ fs) by (rewrite <- app_assoc; reflexivity).
    apply IH; [apply nt_note; assumption|]. destruct T2 as [->|[y ->]]; [rewrite app_nil_r; exact Y|].
    exists (base ++ text ++ y). rewrite <- !app_assoc. reflexivity.
Qed.

(** What a flush does to the footnotes. *)
Definition taken (limit : option nat) (s s' : st) (g : list footnote) : Prop :=
  exists x, output s' = output s ++ x /\ noted (output s) x g
  /\ notes (trace s') = notes (trace s) ++ g
  /\ Permutation (pend s) (g ++ pend s')
  /\ Forall (fun f => in_time limit (fn_reference_line f)) g
  /\ Forall (fun f => ~ in_time limit (fn_reference_line f)) (pend s').
Lemma filter_split : forall A (p : A -> bool) l, Permutation l (filter p l ++ filter (fun x => negb (p x)) l).
Proof.
  intros A p l. induction l as [|x l IH]; [constructor|]. cbn [filter]. destruct (p x); cbn [negb app].
  - constructor. exact IH.
  - apply Permutation_cons_app. exact IH.
Qed.
Lemma flush_taken : forall names limit s s', note_inv names s -> flush_all U o checks limit s = Ok s' ->
  note_inv names s' /\ exists g, taken limit s s' g.
Proof.
  intros names limit s s' I E. apply seqa_ok in E. destruct E as (m & E1 & E). apply seqa_ok in E. destruct E as (m2 & E2 & E3).
  apply flush_footnotes_ok in E1. destruct E1 as (texts & F & O1 & T1 & _ & _ & _ & P1 & L1 & _ & _ & _ & _ & _ & _ & _ & _ & M1).
  destruct (flush_references_eq m) as (m2' & E2' & O2 & T2 & _ & _ & F2 & _). rewrite E2' in E2. injection E2 as <-.
  destruct (flush_footnote_references_eq limit m2') as (m3 & E3' & O3 & T3 & _ & _ & P3 & Em3 & L3 & _). rewrite E3' in E3. injection E3 as <-.
  pose proof (live_all _ _ I) as L.
  assert (NK : NoDup (map fst (kept_footnotes limit s))).
  { unfold kept_footnotes. rewrite L. apply nodup_map_filter. apply I. }
  rewrite (reinsert_id _ _ NK) in P1.
  assert (P : f_pending (footnotes m3) = kept_footnotes limit s) by congruence.
  assert (Em : forall k, In k (f_emitted (footnotes m3)) <-> In k (f_emitted (footnotes s)) \/ In k (map fn_name (due_footnotes limit s))).
  { intro k. rewrite Em3, F2, M1. unfold footnote_order.
    pose proof (flush_order_perm _ (fun x => extract_numeric_footnote_name (fn_name x)) (due_footnotes limit s)) as Q.
    split; (intros [?|J]; [left; assumption|right]); [apply (Permutation_in k (Permutation_map fn_name (Permutation_sym Q)))|apply (Permutation_in k (Permutation_map fn_name Q))]; exact J. }
  split.
  - destruct I. unfold entries in ni_entries0. split.
    + rewrite P. unfold entries, kept_footnotes. rewrite L. apply Forall_forall. intros kv J. apply filter_In in J.
      rewrite Forall_forall in ni_entries0. apply ni_entries0. apply J.
    + rewrite P. exact NK.
    + intros k J. rewrite P in J. rewrite Em. intros [K|K].
      * apply (ni_new0 k); [|exact K]. unfold kept_footnotes in J. rewrite L in J. apply in_map_iff in J. destruct J as (kv & <- & J).
        apply filter_In in J. apply in_map. apply J.
      * apply in_map_iff in J. destruct J as (kv & <- & J). apply in_map_iff in K. destruct K as (f & Q & K).
        unfold kept_footnotes in J. unfold due_footnotes in K. rewrite L in J, K. apply filter_In in J. destruct J as [J D].
        apply in_map_iff in K. destruct K as (kv' & <- & K). apply filter_In in K. destruct K as [K D'].
        rewrite Forall_forall in ni_entries0. destruct (ni_entries0 kv' K) as [A _]. rewrite <- A in Q.
        assert (kv = kv').
        { revert ni_keys0 J K Q. clear. intros N J K Q. induction (f_pending (footnotes s)) as [|y l IH]; [destruct J|].
          cbn [map] in N. inversion N; subst. destruct J as [->|J], K as [->|K]; auto.
          - exfalso. apply H1. rewrite <- Q. apply in_map. exact K.
          - exfalso. apply H1. rewrite Q. apply in_map. exact J. }
        subst kv'. rewrite D' in D. discriminate.
    + congruence.
  - pose proof (flush_order_perm _ (fun x => extract_numeric_footnote_name (fn_name x)) (due_footnotes limit s)) as Q.
    fold (footnote_order (due_footnotes limit s)) in Q. set (g := footnote_order (due_footnotes limit s)) in *.
    exists g. eexists. split; [rewrite O3, O2, O1, <- !app_assoc; reflexivity|]. split.
    { apply (nt_text _ _ g). unfold section_text. destruct (is_nil (due_footnotes limit s)) eqn:Z.
      - destruct (due_footnotes limit s); [|discriminate]. apply Permutation_nil in Q. rewrite Q. constructor.
      - apply (texts_noted (output s) g texts _ []); [exact F|apply (nt_text (output s) []); constructor|apply blank_before_ends]. }
    split; [rewrite T3, T2, T1, !notes_app, notes_notes, !notes_defs, !app_nil_r; reflexivity|].
    unfold pend. rewrite P. split; [|split].
    + eapply Permutation_trans; [|apply Permutation_app_tail; exact Q]. unfold due_footnotes, kept_footnotes. rewrite L, <- map_app.
      apply Permutation_map. apply filter_split.
    + apply Forall_forall. intros f J. apply (Permutation_in f (Permutation_sym Q)) in J. unfold due_footnotes in J.
      apply in_map_iff in J. destruct J as (kv & <- & J). apply filter_In in J. apply due_in_time. apply J.
    + apply Forall_forall. intros f J. apply in_map_iff in J. destruct J as (kv & <- & J). unfold kept_footnotes in J. apply filter_In in J.
      rewrite <- due_in_time. destruct J as [_ J]. destruct (due limit _); [discriminate|]. discriminate.
Qed.

(** ** The whole document *)
Lemma note_inv_same : forall names s s', note_inv names s -> same_notes s s' -> note_inv names s'.
Proof. intros names s s' [] [E1 E2 E3 E4]. split; rewrite ?E1, ?E2, ?E3; assumption. Qed.
Lemma pend_same : forall s s', same_notes s s' -> pend s' = pend s.
Proof. intros s s' [E1 _ _ _]. unfold pend. rewrite E1. reflexivity. Qed.

(** After the flush, a block only writes. *)
Definition writes (s s' : st) : Prop := same_notes s s' /\ exists own, output s' = output s ++ own.
Definition block_rest (prev : option node) (n : node) (a : act) : act :=
  emit (block_separator prev n) ;;
  get skip (fun m =>
    let verbatim :=
      match extract_source src (node_pos n) with
      | Panic => panic
      | Ok (Some source) => emit (source ++ [c_nl])
      | Ok None => a
      end in
    match m with
    | SkipNone => a
    | SkipNextBlock => upd (set_skip SkipNone) ;; verbatim
    | SkipUntilSection => if is_section_heading n then upd (set_skip SkipNone) ;; a else verbatim
    | SkipDisabled => verbatim
    end).
Lemma writes_emit : forall x s s', emit x s = Ok s' -> writes s s'.
Proof. intros x s s' E. injection E as <-. split; [sn0|]. exists x. reflexivity. Qed.
Lemma writes_skip : forall m s s', upd (set_skip m) s = Ok s' -> writes s s'.
Proof. intros m s s' E. injection E as <-. split; [sn0|]. exists []. rewrite app_nil_r. reflexivity. Qed.
Lemma writes_trans : forall a b c, writes a b -> writes b c -> writes a c.
Proof.
  intros a b c [S1 [x X]] [S2 [y Y]]. split; [eapply same_notes_trans; eassumption|]. exists (x ++ y). rewrite Y, X, app_assoc. reflexivity.
Qed.
Lemma writes_serialize : forall n next s s', no_document n = true -> no_notes n -> knows (f_reference_lines (footnotes s)) n ->
  ser next n s = Ok s' -> writes s s'.
Proof.
  intros n next s s' D NN Kn E. split.
  - eapply built_quiet; [apply quiet_serialize; eassumption|exact E|reflexivity].
  - apply serialize_grows in E. destruct E as [[x G] _ _ _]. exists x. exact G.
Qed.
Lemma block_rest_writes : forall prev n next s s', no_document n = true -> no_notes n -> knows (f_reference_lines (footnotes s)) n ->
  block_rest prev n (ser next n) s = Ok s' -> writes s s'.
Proof.
  intros prev n next s s' D NN Kn E. unfold block_rest in E. apply seqa_ok in E. destruct E as (m & E1 & E).
  apply writes_emit in E1. eapply writes_trans; [exact E1|].
  assert (Ser : forall y z, f_reference_lines (footnotes y) = f_reference_lines (footnotes s) -> ser next n y = Ok z -> writes y z).
  { intros y z Q. apply writes_serialize; auto. rewrite Q. exact Kn. }
  pose proof (sn_lines _ _ (proj1 E1)) as L. clear E1. unfold get in E. cbv zeta in E.
  assert (V : forall y z, f_reference_lines (footnotes y) = f_reference_lines (footnotes s) ->
            match extract_source src (node_pos n) with Panic => panic | Ok (Some source) => emit (source ++ [c_nl]) | Ok None => ser next n end y = Ok z ->
            writes y z).
  { intros y z Q. destruct (extract_source src (node_pos n)) as [[x|]|]; [apply writes_emit|apply Ser; exact Q|discriminate]. }
  destruct (skip m).
  - apply Ser; assumption.
  - apply seqa_ok in E. destruct E as (m2 & E1 & E2). apply writes_skip in E1. eapply writes_trans; [exact E1|]. apply V; [|exact E2].
    rewrite (sn_lines _ _ (proj1 E1)). exact L.
  - destruct (is_section_heading n); [|apply V; assumption].
    apply seqa_ok in E. destruct E as (m2 & E1 & E2). apply writes_skip in E1. eapply writes_trans; [exact E1|]. apply Ser; [|exact E2].
    rewrite (sn_lines _ _ (proj1 E1)). exact L.
  - apply V; assumption.
Qed.

Lemma trailing_writes : forall cs first s s', output_trailing first cs s = Ok s' -> writes s s'.
Proof.
  intros cs first s s' E. split.
  - destruct (trailing_same _ _ _ _ E) as (_ & F & T). split; rewrite ?F, ?T; reflexivity.
  - revert first s E. induction cs as [|c cs IH]; intros first s E; cbn [output_trailing] in E; [injection E as <-; exists []; rewrite app_nil_r; reflexivity|].
    destruct (node_value c); try exact (IH _ _ E).
    apply seqa_ok in E. destruct E as (m & E1 & E). apply seqa_ok in E. destruct E as (m2 & E2 & E3). injection E2 as <-.
    destruct (IH _ _ E3) as (x & X). cbn [output set_output] in X. rewrite X. destruct first.
    + rewrite ensure_blank_line_eq in E1. injection E1 as <-. eexists. cbn [output set_output]. rewrite <- !app_assoc. reflexivity.
    + injection E1 as <-. eexists. rewrite <- !app_assoc. reflexivity.
Qed.

Theorem doc_run_flow : forall names tail prev cs s s', doc_run U PN ENT o B src ends_nl checks tail prev cs s s' ->
  forallb no_document cs = true ->
  (forall n, In n cs -> note_definition n \/ no_notes n) ->
  (forall n, In n cs -> ~ directs n DisableFile) ->
  Forall (knows names) cs ->
  note_inv names s ->
  exists gs text, output s' = output s ++ text /\ flow (output s) prev cs gs text
    /\ notes (trace s') = notes (trace s) ++ List.concat (map snd gs)
    /\ Permutation (pend s) (List.concat (map snd gs))
    /\ placed gs.
Proof.
  intros names tail prev cs s s' R.
  induction R as [prev s m s' E1 E2|prev n cs s s' N R IH|prev n cs s s' N R IH|prev n l cs s s' D0 HL E
                 |prev n d l cs s m s' D0 ND HL E R IH|prev n cs s m s' Ord E R IH]; intros D NN NF Kn I.
  - destruct (flush_taken _ _ _ _ I E1) as (_ & g & x & O1 & N1 & T1 & P1 & In1 & Out1).
    destruct (trailing_writes _ _ _ _ E2) as [S2 [y O2]].
    exists [(None, g)], (x ++ y). split; [rewrite O2, O1, app_assoc; reflexivity|].
    split; [apply fw_end; apply nt_text; exact N1|]. cbn [map snd List.concat]. rewrite app_nil_r.
    assert (Z : pend m = []).
    { destruct (pend m) as [|f r]; [reflexivity|]. inversion Out1 as [|? ? H]. exfalso. apply H. exact Logic.I. }
    rewrite Z, app_nil_r in P1. split; [rewrite (sn_notes _ _ S2); exact T1|]. split; [exact P1|].
    constructor; [exact In1|constructor|constructor].
  - cbn [forallb] in D. apply andb_true_iff in D. destruct D as [D1 D2]. inversion Kn; subst.
    destruct (IH D2) as (gs & text & A & F & Rest); [intros x J; apply NN; right; exact J|intros x J; apply NF; right; exact J|assumption|exact I|].
    exists gs, text. split; [exact A|]. split; [apply fw_skip; auto|exact Rest].
  - cbn [forallb] in D. apply andb_true_iff in D. destruct D as [D1 D2]. inversion Kn; subst.
    destruct (IH D2) as (gs & text & A & F & Rest); [intros x J; apply NN; right; exact J|intros x J; apply NF; right; exact J|assumption|exact I|].
    exists gs, text. split; [exact A|]. split; [apply fw_skip; auto|exact Rest].
  - exfalso. apply (NF n); [left; reflexivity|exact D0].
  - cbn [forallb] in D. apply andb_true_iff in D. destruct D as [D1 D2]. inversion Kn; subst.
    assert (Nn : ~ note_definition n) by (intros [name V]; unfold html_literal in HL; congruence).
    assert (Nt : ~ trails n cs).
    { intros (_ & [Q|[_ Q]] & _); [exact (Nn Q)|exact (Q d D0)]. }
    assert (Fl : flushes prev n <-> d = Disable \/ d = DisableNextLine \/ d = DisableNextSection).
    { split.
      - intros [(d' & D' & Q)|(_ & _ & Q)]; [|exfalso; exact (Q d D0)]. apply directs_iff in D0, D'. assert (d' = d) by congruence. subst. exact Q.
      - intro Q. left. exists d. auto. }
    assert (Go : forall y, note_inv names y -> forall g, taken (Some (start_line (node_pos n))) s y g -> writes y m -> flushes prev n ->
       exists gs text, output s' = output s ++ text /\ flow (output s) prev (n :: cs) gs text
         /\ notes (trace s') = notes (trace s) ++ List.concat (map snd gs)
         /\ Permutation (pend s) (List.concat (map snd gs)) /\ placed gs).
    { intros y Iy g (x & O1 & N1 & T1 & P1 & In1 & Out1) [S2 [own O2]] FF.
      destruct (IH D2) as (gs & text & A & F & T & P & Pl); 
        [intros z J; apply NN; right; exact J|intros z J; apply NF; right; exact J|assumption|exact (note_inv_same _ _ _ Iy S2)|].
      rewrite (pend_same _ _ S2) in P. rewrite (sn_notes _ _ S2) in T.
      exists ((Some (start_line (node_pos n)), g) :: gs), (x ++ own ++ text).
      split; [rewrite A, O2, O1, <- !app_assoc; reflexivity|]. split.
      - apply fw_flush; auto. rewrite O2, O1, <- !app_assoc in F. exact F.
      - cbn [map snd List.concat]. split; [rewrite T, T1, <- app_assoc; reflexivity|]. split.
        + eapply Permutation_trans; [exact P1|]. apply Permutation_app_head. exact P.
        + constructor; [exact In1| |exact Pl]. apply Forall_forall. intros h Jh. apply Forall_forall. intros f Jf.
          rewrite Forall_forall in Out1. apply Out1. apply (Permutation_in f (Permutation_sym P)). apply in_concat. exists (snd h).
          split; [apply in_map; exact Jh|exact Jf]. }
    assert (St : writes s m -> ~ flushes prev n ->
       exists gs text, output s' = output s ++ text /\ flow (output s) prev (n :: cs) gs text
         /\ notes (trace s') = notes (trace s) ++ List.concat (map snd gs)
         /\ Permutation (pend s) (List.concat (map snd gs)) /\ placed gs).
    { intros [S2 [own O2]] FF.
      destruct (IH D2) as (gs & text & A & F & T & P & Pl); 
        [intros z J; apply NN; right; exact J|intros z J; apply NF; right; exact J|assumption|exact (note_inv_same _ _ _ I S2)|].
      rewrite (pend_same _ _ S2) in P. rewrite (sn_notes _ _ S2) in T.
      exists gs, (own ++ text). split; [rewrite A, O2, <- app_assoc; reflexivity|]. split; [|auto].
      apply fw_plain; auto. rewrite O2 in F. exact F. }
    unfold directive_act in E. cbv zeta in E.
    destruct d; try contradiction;
      try (apply seqa_ok in E; destruct E as (y & E1 & E2); apply seqa_ok in E2; destruct E2 as (z & E2 & E3);
           destruct (flush_taken _ _ _ _ I E1) as (Iy & g & Tk); apply writes_skip in E2; apply writes_emit in E3;
           apply (Go y Iy g Tk); [eapply writes_trans; eassumption|apply Fl; auto]; fail);
      (apply seqa_ok in E; destruct E as (y & E1 & E2); apply writes_emit in E2; apply St;
       [eapply writes_trans; [|exact E2]; first [exact (writes_skip _ _ _ E1)|injection E1 as <-; split; [sn0|exists []; rewrite app_nil_r; reflexivity]]
       |intro Q; apply Fl in Q; destruct Q as [Q|[Q|Q]]; discriminate Q]).
  - cbn [forallb] in D. apply andb_true_iff in D. destruct D as [D1 D2]. inversion Kn as [|? ? K1 K2]; subst.
    destruct Ord as (Nn & Nt & Nd).
    assert (NNn : no_notes n) by (destruct (NN n (or_introl eq_refl)) as [Q|Q]; [contradiction|exact Q]).
    change (document_block U o src checks prev n (ser (hd_error cs) n)) with
      ((match heading_level n, prev with
        | Some 2, Some _ | Some 3, Some _ => flush_all U o checks (Some (start_line (node_pos n)))
        | _, _ => nop
        end) ;; block_rest prev n (ser (hd_error cs) n)) in E.
    apply seqa_ok in E. destruct E as (y & E1 & E2).
    assert (Wr : note_inv names y -> writes y m).
    { intro Iy. eapply block_rest_writes; [exact D1|exact NNn|rewrite (ni_lines _ _ Iy); exact K1|exact E2]. }
    assert (Fl : flushes prev n <-> prev <> None /\ (heading_level n = Some 2 \/ heading_level n = Some 3)).
    { unfold heading_level. split.
      - intros [(d' & D' & _)|(P & [V|V] & _)]; [exfalso; exact (Nd d' D')|rewrite V; auto|rewrite V; auto].
      - intros [P H]. right. split; [exact P|]. split; [|exact Nd]. destruct (node_value n); try (destruct H; discriminate).
        destruct H as [H|H]; injection H as ->; auto. }
    assert (Go : flush_all U o checks (Some (start_line (node_pos n))) s = Ok y -> flushes prev n ->
       exists gs text, output s' = output s ++ text /\ flow (output s) prev (n :: cs) gs text
         /\ notes (trace s') = notes (trace s) ++ List.concat (map snd gs)
         /\ Permutation (pend s) (List.concat (map snd gs)) /\ placed gs).
    { intros Ey FF. destruct (flush_taken _ _ _ _ I Ey) as (Iy & g & x & O1 & N1 & T1 & P1 & In1 & Out1). destruct (Wr Iy) as [S2 [own O2]].
      destruct (IH D2) as (gs & text & A & F & T & P & Pl); 
        [intros z J; apply NN; right; exact J|intros z J; apply NF; right; exact J|assumption|exact (note_inv_same _ _ _ Iy S2)|].
      rewrite (pend_same _ _ S2) in P. rewrite (sn_notes _ _ S2) in T.
      exists ((Some (start_line (node_pos n)), g) :: gs), (x ++ own ++ text).
      split; [rewrite A, O2, O1, <- !app_assoc; reflexivity|]. split.
      - apply fw_flush; auto. rewrite O2, O1, <- !app_assoc in F. exact F.
      - cbn [map snd List.concat]. split; [rewrite T, T1, <- app_assoc; reflexivity|]. split.
        + eapply Permutation_trans; [exact P1|]. apply Permutation_app_head. exact P.
        + constructor; [exact In1| |exact Pl]. apply Forall_forall. intros h Jh. apply Forall_forall. intros f Jf.
          rewrite Forall_forall in Out1. apply Out1. apply (Permutation_in f (Permutation_sym P)). apply in_concat. exists (snd h).
          split; [apply in_map; exact Jh|exact Jf]. }
    assert (St : y = s -> ~ flushes prev n ->
       exists gs text, output s' = output s ++ text /\ flow (output s) prev (n :: cs) gs text
         /\ notes (trace s') = notes (trace s) ++ List.concat (map snd gs)
         /\ Permutation (pend s) (List.concat (map snd gs)) /\ placed gs).
    { intros -> FF. destruct (Wr I) as [S2 [own O2]].
      destruct (IH D2) as (gs & text & A & F & T & P & Pl); 
        [intros z J; apply NN; right; exact J|intros z J; apply NF; right; exact J|assumption|exact (note_inv_same _ _ _ I S2)|].
      rewrite (pend_same _ _ S2) in P. rewrite (sn_notes _ _ S2) in T.
      exists gs, (own ++ text). split; [rewrite A, O2, <- app_assoc; reflexivity|]. split; [|auto].
      apply fw_plain; auto. rewrite O2 in F. exact F. }
    clear E2 Wr. destruct (heading_level n) as [[|[|[|[|k]]]]|] eqn:H;
      try (apply St; [injection E1 as <-; reflexivity|intro Q; apply Fl in Q; destruct Q as [_ [Q|Q]]; discriminate Q]; fail).
    + destruct prev as [pn|]; [apply Go; [exact E1|apply Fl; split; [discriminate|auto]]|].
      apply St; [injection E1 as <-; reflexivity|]. intro Q. apply Fl in Q. destruct Q as [Q _]. apply Q. reflexivity.
    + destruct prev as [pn|]; [apply Go; [exact E1|apply Fl; split; [discriminate|auto]]|].
      apply St; [injection E1 as <-; reflexivity|]. intro Q. apply Fl in Q. destruct Q as [Q _]. apply Q. reflexivity.
Qed.
End Notes.
