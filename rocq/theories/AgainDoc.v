(** Two runs, the second on what the first wrote, go side by side (C45). *)
From Coq Require Import Bool Arith NArith Lia ZifyBool ZifyNat ZifyN String List.
From Verif Require Import Base BaseFacts WrapModel WrapProof OptsModel CodeModel HeadingModel TableModel AstModel StateModel InlineModel WarnModel SerModel
  SpecCode SpecHeading SpecRefs SpecWrap SpecBlocks SpecEnd SpecStructure SpecAgain StateProof SerFacts EndProof CodeProof PropsCode BlocksProof ParaProof NestProof LeafProof
  PropsWrap PropsBlocks StructProof StructDesc StructList AgainProof.
From Verif Require Import PropsAgain.
From Verif Require NoteProof.
Import ListNotations.

(** ** States that agree

    [near l l'] are lines on the same side of every place where footnotes are
    written, [noted] the names of footnotes, [mode] whether blocks are kept as
    they are. *)
Section Near.
Variable near : nat -> nat -> Prop.
Variable noted : str -> Prop.
Variable mode : skip_mode.
Variable ns : list str * list str.
Definition same_note (f g : footnote) : Prop :=
  fn_name f = fn_name g /\ fn_has_blocks f = fn_has_blocks g
  /\ (if fn_has_blocks f then fn_content f = fn_content g else words (fn_content f) = words (fn_content g))
  /\ near (fn_reference_line f) (fn_reference_line g).
Definition same_key {A} (R : A -> A -> Prop) (a b : str * A) : Prop := fst a = fst b /\ R (snd a) (snd b).
Definition agree (f g : footnote_set) : Prop :=
  Forall2 (same_key same_note) (f_pending f) (f_pending g)
  /\ Forall2 (same_key (fun x y => fst x = fst y /\ near (snd x) (snd y))) (f_pending_references f) (f_pending_references g)
  /\ f_emitted f = f_emitted g /\ f_collecting f = f_collecting g /\ near (f_current_line f) (f_current_line g)
  /\ forall name, noted name -> near (NoteProof.line_of (f_reference_lines f) name) (NoteProof.line_of (f_reference_lines g) name).
Definition lock (s t : st) : Prop :=
  output s = output t /\ cx s = cx t /\ pending_references s = pending_references t /\ emitted_references s = emitted_references t
  /\ (skip s = mode /\ skip t = mode) /\ (proper_nouns s = fst ns /\ proper_nouns t = fst ns) /\ (common_nouns s = snd ns /\ common_nouns t = snd ns)
  /\ List.length (calls s) = List.length (calls t) /\ agree (footnotes s) (footnotes t).
Definition sim (P Q : ctx -> Prop) (a b : act) : Prop := forall s t s', lock s t -> P (cx s) -> a s = Ok s' ->
  exists t', b t = Ok t' /\ lock s' t' /\ Q (cx s').
Ltac lo := unfold lock in *; cbn [set_output set_cx set_pending set_emitted set_footnotes set_skip set_warnings set_nouns
  set_calls set_trace output cx pending_references emitted_references footnotes skip warnings proper_nouns common_nouns calls trace
  f_reference_lines f_emitted f_pending f_pending_references f_collecting f_current_line] in *.
Lemma sim_nop : forall P, sim P P nop nop.
Proof. intros P s t s' L C E. injection E as <-. exists t. split; [reflexivity|]. split; assumption. Qed.
Lemma sim_panic : forall P Q b, sim P Q panic b.
Proof. intros P Q b s t s' L C E. discriminate. Qed.
Lemma sim_seq : forall P Q R a b a' b', sim P Q a a' -> sim Q R b b' -> sim P R (a ;; b) (a' ;; b').
Proof.
  intros P Q R a b a' b' A Bb s t s' L C E. apply seqa_ok in E. destruct E as (m & E1 & E2).
  destruct (A _ _ _ L C E1) as (n & F1 & L1 & C1). destruct (Bb _ _ _ L1 C1 E2) as (t' & F2 & L2 & C2).
  exists t'. split; [apply seqa_ok; exists n; auto|]. split; assumption.
Qed.
Lemma sim_cx : forall c Q k k', sim (eq c) Q (k c) (k' c) -> sim (eq c) Q (get cx k) (get cx k').
Proof.
  intros c Q k k' H s t s' L C E. unfold get in *. assert (Q0 : cx t = c) by (rewrite C; symmetry; apply L). rewrite Q0. rewrite <- C in E.
  exact (H s t s' L C E).
Qed.
Lemma sim_get : forall A (f : st -> A) P Q k k', (forall s t, lock s t -> f s = f t) -> (forall x, sim P Q (k x) (k' x)) -> sim P Q (get f k) (get f k').
Proof. intros A f P Q k k' F H s t s' L C E. unfold get in *. rewrite <- (F s t L). exact (H _ s t s' L C E). Qed.
Lemma sim_weak : forall (P P' Q Q' : ctx -> Prop) a b, (forall c, P c -> P' c) -> (forall c, Q' c -> Q c) -> sim P' Q' a b -> sim P Q a b.
Proof. intros P P' Q Q' a b H1 H2 H s t s' L C E. destruct (H s t s' L (H1 _ C) E) as (t' & F & L' & C'). exists t'. auto. Qed.
Lemma sim_emit : forall P x, sim P P (emit x) (emit x).
Proof.
  intros P x s t s' L C E. injection E as <-. eexists. split; [reflexivity|]. split; [|exact C]. lo.
  destruct L as (-> & L). split; [reflexivity|exact L].
Qed.
Lemma sim_updc : forall c f g, g c = f c -> sim (eq c) (eq (f c)) (updc f) (updc g).
Proof.
  intros c f g H s t s' L C E. injection E as <-. eexists. split; [reflexivity|].
  split; [|cbn [cx set_cx]; rewrite C; reflexivity]. lo. assert (Q : cx t = c) by (rewrite C; symmetry; apply L). rewrite Q, H, <- C.
  destruct L as (L1 & _ & L). split; [exact L1|]. split; [reflexivity|exact L].
Qed.
Lemma sim_log : forall P e e', sim P P (log e) (log e').
Proof. intros P e e' s t s' L C E. injection E as <-. eexists. split; [reflexivity|]. split; [|exact C]. lo. exact L. Qed.
Lemma sim_warn : forall P w w', sim P P (upd (fun s => set_warnings (warnings s ++ w) s)) (upd (fun s => set_warnings (warnings s ++ w') s)).
Proof. intros P w w' s t s' L C E. injection E as <-. eexists. split; [reflexivity|]. split; [|exact C]. lo. exact L. Qed.
Lemma insert_same : forall A (R : A -> A -> Prop) k x y l m, R x y -> Forall2 (same_key R) l m -> Forall2 (same_key R) (imap_insert k x l) (imap_insert k y m).
Proof.
  intros A R k x y l m H F. induction F as [|[a u] [b v] l m [E Q] F IH]; cbn [imap_insert]; [constructor; [split; [reflexivity|exact H]|constructor]|].
  cbn [fst snd] in *. subst b. destruct (seqb k a); constructor; try assumption; split; try reflexivity; assumption.
Qed.
Lemma sim_use : forall P r, sim P P (add_reference r) (add_reference r).
Proof.
  intros P r s t s' L C E.
  destruct L as (L1 & L2 & L3 & L4 & L5 & L6 & L7 & L8 & A). destruct (A) as (A1 & A2 & A3 & A4 & A5 & A6).
  unfold add_reference, upd in *. cbv beta zeta in *. rewrite A4 in E. injection E as <-. eexists. split; [reflexivity|].
  destruct (f_collecting (footnotes t)); (split; [|exact C]); lo; repeat (split; [assumption|]).
  - split; [apply insert_same; [split; [reflexivity|exact A5]|exact A2]|]. auto.
  - split; [rewrite L3; reflexivity|]. do 5 (split; [assumption|]). exact A.
Qed.
Lemma sim_event : forall P e, sim P P (do_event e) (do_event e).
Proof. intros P [r|x]; [apply sim_use|apply sim_log]. Qed.
Lemma sim_all : forall P l, (forall x, In x l -> sim P P x x) -> sim P P (all l) (all l).
Proof.
  intros P l. induction l as [|a l IH]; intro H; [apply sim_nop|]. cbn [all fold_right]. eapply sim_seq; [apply H; left; reflexivity|].
  apply IH. intros x I. apply H. right. exact I.
Qed.
Lemma sim_events : forall P evs, sim P P (all (map do_event evs)) (all (map do_event evs)).
Proof. intros P evs. apply sim_all. intros x I. apply in_map_iff in I. destruct I as (e & <- & _). apply sim_event. Qed.
Lemma sim_inline : forall P Q x x' evs k k', sim P Q (k x) (k' x') -> sim P Q (inline (Ok (x, evs)) k) (inline (Ok (x', evs)) k').
Proof. intros. cbn [inline]. eapply sim_seq; [apply sim_events|assumption]. Qed.
(** Code: the text and the number of formatter calls agree. *)
Lemma sim_code : forall P (f g : nat -> str * effects), (forall n, fst (f n) = fst (g n) /\ List.length (eff_calls (snd (f n))) = List.length (eff_calls (snd (g n)))) ->
  sim P P (code_act f) (code_act g).
Proof.
  intros P f g H. unfold code_act. apply sim_get; [intros s t L; apply L|]. intro n. specialize (H n).
  destruct (f n) as [x e], (g n) as [y e']. cbn [fst snd] in H. destruct H as [<- Hl].
  eapply sim_seq; [|eapply sim_seq; [apply sim_log|apply sim_emit]].
  intros s t s' L C E. injection E as <-. eexists. split; [reflexivity|]. split; [|exact C]. lo. rewrite !app_length, Hl.
  destruct L as (? & ? & ? & ? & ? & ? & ? & -> & ?). repeat (split; [assumption || reflexivity|]). assumption.
Qed.
Section Code.
Variable o : Options.
Variable B : backend.
Lemma same_code_parts : forall info literal info' literal' k, same_code o B info literal info' literal' ->
  fst (code_parts o B k info literal) = fst (code_parts o B k info' literal')
  /\ List.length (eff_calls (snd (code_parts o B k info literal))) = List.length (eff_calls (snd (code_parts o B k info' literal'))).
Proof.
  intros info literal info' literal' k [Hi H].
  destruct (code_parts o B k info literal) as [[i c] e] eqn:E. destruct (code_parts o B k info' literal') as [[i' c'] e'] eqn:E'.
  apply code_parts_settles in E. apply code_parts_settles in E'. destruct E as (-> & f & S1 & _). destruct E' as (-> & f' & S2 & _). cbn [fst snd].
  destruct (H _ _ _ _ S1) as (calls' & f2 & S3 & L). destruct (C21_settles_deterministic _ _ _ _ _ _ _ _ _ _ _ S2 S3) as (-> & -> & _).
  rewrite Hi. split; [reflexivity|symmetry; exact L].
Qed.
Lemma same_code_block : forall info literal info' literal' q k, same_code o B info literal info' literal' ->
  fst (code_block o B q k info literal) = fst (code_block o B q k info' literal')
  /\ List.length (eff_calls (snd (code_block o B q k info literal))) = List.length (eff_calls (snd (code_block o B q k info' literal'))).
Proof.
  intros info literal info' literal' q k H. destruct (same_code_parts _ _ _ _ k H) as [E L]. unfold code_block.
  destruct (code_parts o B k info literal) as [[i c] e], (code_parts o B k info' literal') as [[i' c'] e']. cbn [fst snd] in E, L. injection E as <- <-.
  split; [reflexivity|exact L].
Qed.
Lemma same_code_indented : forall info literal info' literal' q base k, same_code o B info literal info' literal' ->
  fst (code_block_indented o B q k info literal base) = fst (code_block_indented o B q k info' literal' base)
  /\ List.length (eff_calls (snd (code_block_indented o B q k info literal base))) = List.length (eff_calls (snd (code_block_indented o B q k info' literal' base))).
Proof.
  intros info literal info' literal' q base k H. destruct (same_code_parts _ _ _ _ k H) as [E L]. unfold code_block_indented.
  destruct (code_parts o B k info literal) as [[i c] e], (code_parts o B k info' literal') as [[i' c'] e']. cbn [fst snd] in E, L. injection E as <- <-.
  split; [reflexivity|exact L].
Qed.
End Code.

(** ** Blocks *)
Section Blocks.
Variable U : Uni.
Variable PN : list (str * str).
Variable ENT : str -> option str.
Variable o : Options.
Variable B : backend.
Variables src src' : list str.
Variables ends_nl ends_nl' : bool.
Variables checks checks' : bool.
Hypothesis laws : width_laws U.
Hypothesis cols : four_columns o.
Let ser := serialize U PN ENT o B src ends_nl checks.
Let ser' := serialize U PN ENT o B src' ends_nl' checks'.
Let again := again U PN ENT o B src src' ns.
Let again_item := again_item U PN ENT o B src src' ns.
Let again_entry := again_entry U PN ENT o B src src' ns.

Lemma line_start_lead : forall w, line_start w = lead w.
Proof. intros [a k d]. reflexivity. Qed.
Lemma spaces_spaced : forall n, spaced (spaces n).
Proof. intros [|n]; [left; reflexivity|]. right. exists (spaces n). unfold spaces. apply repc_S_snoc. Qed.
Lemma lead_spaced : forall w, spaced (lead w).
Proof.
  intros [a k d]. unfold lead. cbn [outer marks inner].
  assert (J : forall x y, spaced x -> spaced y -> spaced (x ++ y)).
  { intros x y [->|[q ->]] [->|[r ->]]; [left; reflexivity|right; exists r; reflexivity|right; exists q; rewrite app_nil_r; reflexivity|].
    right. eexists. rewrite app_assoc. reflexivity. }
  apply J; [apply spaces_spaced|]. apply J; [|apply spaces_spaced].
  unfold quote_marks. induction k as [|k IH]; [left; reflexivity|]. cbn [repeat List.concat]. apply J; [right; exists (lit ">"); reflexivity|exact IH].
Qed.
Lemma lead_line : forall w, Forall (fun c => c <> c_nl) (lead w).
Proof.
  intros [a k d]. unfold lead. cbn [outer marks inner].
  assert (Sp : forall n, Forall (fun c => c <> c_nl) (spaces n)).
  { induction n as [|n IH]; [constructor|]. cbn. constructor; [discriminate|exact IH]. }
  apply Forall_app. split; [apply Sp|]. apply Forall_app. split; [|apply Sp].
  unfold quote_marks. induction k as [|k IH]; [constructor|]. cbn [repeat List.concat]. apply Forall_app. split; [|exact IH].
  constructor; [discriminate|]. constructor; [discriminate|constructor].
Qed.
Lemma prefix_lead : forall a k c, ok_place (At a k 0) -> ctx_at (At a k 0) c ->
  list_type c = None /\ (if in_block_quote c then blockquote_outer_indent c ++ blockquote_prefix c else []) = lead (At a k 0).
Proof.
  intros a k c Op [Ct Cq Cp Cd Cdet Cf Ci Co Ce]. cbn [outer marks inner] in *. split; [apply Ct; reflexivity|].
  rewrite Cq, Co, Cp. unfold lead. cbn [outer marks inner]. change (spaces (4 * 0)) with (@nil char). rewrite app_nil_r.
  destruct k as [|k]; [|reflexivity]. destruct Op as [[Oa _]|[Ok _]]; cbn [outer marks] in *; [rewrite Oa; reflexivity|discriminate].
Qed.
Lemma continuation_lead : forall a k d c, ok_place (At a k (S d)) -> ctx_at (At a k (S d)) c ->
  (exists kind, list_type c = Some kind) /\ paragraph_continuation o c = lead (At a k (S d)).
Proof.
  intros a k d c Op [Ct Cq Cp Cd Cdet Cf Ci Co Ce]. cbn [outer marks inner] in *.
  split; [destruct (list_type c) as [kind|]; [exists kind; reflexivity|discriminate (proj1 Ct eq_refl)]|].
  assert (a = 0) as ->.
  { destruct Op as [[Oa Ok]|[Ok Oi]]; cbn [outer marks inner] in *; [exact Oa|discriminate]. }
  unfold paragraph_continuation. rewrite (Cdet eq_refl), Cd, (Ce eq_refl), Cq, Co, Cp. cbn [andb]. rewrite concat_spaces.
  rewrite Nat.sub_0_r. unfold lead. cbn [outer marks inner]. destruct k; reflexivity.
Qed.
Lemma unstarred_plain : forall ls p source, unstarred ls p -> extract_source ls p = Ok source ->
  match source with
  | Some s => if starts_with (lit "*[") (trim s) && contains_sub (lit "]:") (trim s) then Some (trim s) else None
  | None => None
  end = None.
Proof.
  intros ls p [y|] Un Es; [|reflexivity]. destruct (starts_with (lit "*[") (trim y)) eqn:Q; [|reflexivity]. exfalso.
  apply starts_with_true in Q. destruct Q as [r Q]. destruct (trim_app y) as (u & v & Ex & Fu & _). apply (Un y Es u (r ++ v) Fu).
  rewrite Q, <- app_assoc in Ex. exact Ex.
Qed.
Lemma sim_paragraph : forall w p cs p' cs', ok_place w -> again w (Node NParagraph p cs) (Node NParagraph p' cs') ->
  forall c, ctx_at w c -> sim (eq c) (eq c) (paragraph U ENT o src (Node NParagraph p cs)) (paragraph U ENT o src' (Node NParagraph p' cs')).
Proof.
  intros w p cs p' cs' Op A c C.
  inversion A as [a k d ? ? ? ? x x' evs Un Un' Np Ic Ic' T| | | | | | | | | |]; subst. unfold paragraph. cbn [node_pos].
  destruct (extract_source src p) as [source|] eqn:Es; [|apply sim_panic]. destruct (extract_source src' p') as [source'|] eqn:Es'; [|congruence].
  cbv zeta. rewrite (unstarred_plain _ _ _ Un Es), (unstarred_plain _ _ _ Un' Es'), Ic, Ic'. apply sim_inline. apply sim_cx.
  rewrite line_start_lead in T. destruct d as [|d]; cbn [Nat.eqb] in T; destruct T as [Sp ->].
  - destruct (prefix_lead _ _ _ Op C) as [-> ->].
    rewrite (C45_wrap_again U x _ (line_width o) laws (lead_spaced _) (lead_line _) Sp).
    apply sim_emit.
  - destruct (continuation_lead _ _ _ _ Op C) as [[kind ->] ->].
    rewrite (C45_wrap_first_again U (trim x) [] _ (line_width o) laws (or_introl eq_refl) (lead_spaced _) (Forall_nil _) (lead_line _) Sp).
    apply sim_emit.
Qed.
Definition child_pair (R : node -> node -> Prop) (x y : node * act) : Prop :=
  R (fst x) (fst y) /\ (exists nx, snd x = ser nx (fst x)) /\ exists ny, snd y = ser' ny (fst y).
Definition kids2 (R : node -> node -> Prop) (k k' : kids) : Prop := Forall2 (child_pair R) k k'.
Lemma kids2_next : forall R cs cs', Forall2 R cs cs' -> kids2 R (combine cs (with_next ser cs)) (combine cs' (with_next ser' cs')).
Proof.
  intros R cs cs' H. induction H as [|c c' cs cs' H1 H IH]; [constructor|]. cbn [with_next combine]. constructor; [|exact IH].
  split; [exact H1|]. split; eexists; reflexivity.
Qed.
Definition runs (w : place) (n n' : node) : Prop := forall c next next', ctx_at w c -> sim (eq c) (eq c) (ser next n) (ser' next' n').
Lemma sim_quote_children : forall w ind pre k k', kids2 (runs w) k k' -> forall c first, ctx_at w c ->
  sim (eq c) (eq c) (blockquote_children ind pre first k) (blockquote_children ind pre first k').
Proof.
  intros w ind pre k k' H c first C. revert first. induction H as [|[n a] [n' a'] k k' (R & (nx & Ea) & ny & Eb) H IH]; intro first; [apply sim_nop|].
  cbn [fst snd] in *. subst a a'. cbn [blockquote_children].
  eapply sim_seq; [|eapply sim_seq; [apply R; exact C|apply IH]]. destruct first; [apply sim_nop|apply sim_emit].
Qed.
Lemma sim_block_quote : forall m d k k' c, quotable m d c -> kids2 (runs (At d (S m) 0)) k k' -> sim (eq c) (eq c) (block_quote k) (block_quote k').
Proof.
  intros m d k k' c C H. unfold block_quote. apply sim_cx. eapply sim_seq; [apply sim_updc; reflexivity|].
  eapply sim_seq; [eapply sim_quote_children; [exact H|apply (qt_inside _ _ _ C)]|].
  rewrite <- (exit_enter c) at 2. apply sim_updc. reflexivity.
Qed.
Definition gap_below (p : sourcepos) (k : kids) : bool := match k with (x, _) :: _ => start_line p + 1 <? start_line (node_pos x) | [] => false end.
Lemma gap_below_title : forall p cs sk, gap_below p (combine cs (with_next sk cs)) = true <-> title_gap p cs.
Proof.
  intros p [|c cs] sk; cbn [with_next combine gap_below].
  - split; [discriminate|intros (x & r & E & _); discriminate].
  - split; [intro H; exists c, cs; split; [reflexivity|lia]|intros (x & r & E & H); injection E as <- <-; lia].
Qed.
Lemma sim_alert : forall m d a p p' k k' c, quotable m d c -> gap_below p k = gap_below p' k' -> kids2 (runs (At d (S m) 0)) k k' ->
  sim (eq c) (eq c) (alert a p k) (alert a p' k').
Proof.
  intros m d a p p' k k' c C G H. unfold alert. apply sim_cx. eapply sim_seq; [apply sim_emit|]. eapply sim_seq; [|eapply sim_block_quote; eassumption].
  destruct H as [|[x ax] [y ay] k k' H1 H]; [apply sim_nop|]. cbn [gap_below] in G. rewrite G. destruct (start_line p' + 1 <? _); [apply sim_emit|apply sim_nop].
Qed.
(** *** Lists *)
Definition runs_item (m d : nat) (kind : list_kind) (tight : bool) (n n' : node) : Prop := forall i c next next', ctx_list m d kind tight i c ->
  sim (eq c) (eq (set_index (list_item_index c + 1) c)) (ser next n) (ser' next' n').
Lemma set_index_twice : forall i j c, set_index i (set_index j c) = set_index i c.
Proof. intros i j []. reflexivity. Qed.
Lemma sim_items : forall m d kind tight k k', kids2 (runs_item m d kind tight) k k' -> forall i c, ctx_list m d kind tight i c ->
  exists j, sim (eq c) (eq (set_index j c)) (children_acts k) (children_acts k').
Proof.
  intros m d kind tight k k' H. induction H as [|[n a] [n' a'] k k' (R & (nx & Ea) & ny & Eb) H IH]; intros i c C.
  - exists (list_item_index c). replace (set_index (list_item_index c) c) with c by (destruct c; reflexivity). apply sim_nop.
  - cbn [fst snd] in *. subst a a'. destruct (IH (S i) (set_index (list_item_index c + 1) c)) as [j J]; [apply set_index_list; exact C|].
    exists j. rewrite set_index_twice in J. unfold children_acts in *. cbn [map all fold_right snd]. eapply sim_seq; [eapply R; exact C|exact J].
Qed.
Lemma enter_list_ctx : forall m d kind tight cs c, ctx_at (At 0 m d) c -> ctx_list m d kind tight 0 (enter_list kind tight cs c).
Proof.
  intros m d kind tight cs c []. cbn [outer marks inner] in *. constructor; cbn [enter_list list_type list_tight list_item_index in_block_quote blockquote_prefix
    list_depth in_description_details description_details_first_list list_item_indent blockquote_outer_indent blockquote_entry_list_depth]; auto. lia.
Qed.
Lemma count_same : forall m d kind tight k k', kids2 (fun n n' => (node_value n = NItem <-> node_value n' = NItem) /\ runs_item m d kind tight n n') k k' ->
  count_list_items (map fst k) = count_list_items (map fst k').
Proof.
  intros m d kind tight k k' H. unfold count_list_items. induction H as [|[n a] [n' a'] k k' ((E & _) & _) H IH]; [reflexivity|].
  cbn [map fst filter] in *. destruct (node_value n) eqn:V, (node_value n') eqn:V'; cbn [List.length]; try (rewrite IH; reflexivity);
    try (destruct E as [E _]; discriminate (E eq_refl)); destruct E as [_ E]; discriminate (E eq_refl).
Qed.
Lemma exit_enter_list : forall kind tight cs j c, exit_list c (set_index j (enter_list kind tight cs c)) = c.
Proof.
  intros kind tight cs j c. destruct c as [a1 a2 a3 a4 a5 a6 a7 a8 a9 a10 a11 a12]. unfold exit_list, set_index, enter_list.
  cbn [list_item_index list_type list_tight in_block_quote blockquote_prefix list_depth in_description_details
    description_details_first_list ordered_list_max_items list_item_indent blockquote_outer_indent blockquote_entry_list_depth]. rewrite Nat.add_sub. reflexivity.
Qed.
Lemma sim_list : forall m d kind tight k k' c, ctx_at (At 0 m d) c ->
  kids2 (fun n n' => (node_value n = NItem <-> node_value n' = NItem) /\ runs_item m d kind tight n n') k k' ->
  sim (eq c) (eq c) (list_block kind tight k) (list_block kind tight k').
Proof.
  intros m d kind tight k k' c C H. unfold list_block. apply sim_cx.
  eapply sim_seq; [apply sim_updc; unfold enter_list; rewrite (count_same _ _ _ _ _ _ H); reflexivity|].
  destruct (sim_items m d kind tight k k') with (i := 0) (c := enter_list kind tight (map fst k) c) as [j J].
  { clear - H. induction H as [|x y k k' ((_ & R) & X) H IH]; constructor; [split; assumption|exact IH]. }
  { apply enter_list_ctx. exact C. }
  eapply sim_seq; [exact J|]. eapply sim_seq.
  - apply sim_get; [intros s t L; f_equal; apply L|]. intro n. destruct (n =? 0); [apply sim_panic|apply sim_nop].
  - assert (Ex := exit_enter_list kind tight (map fst k) j c).
    rewrite <- Ex at 2. apply sim_updc. reflexivity.
Qed.
(** *** Items *)
Lemma again_newline : forall w n n', again w n n' -> ends_with_newline_kind n = ends_with_newline_kind n'
  /\ match node_value n with NCodeBlock _ _ | NList _ _ => true | _ => false end = match node_value n' with NCodeBlock _ _ | NList _ _ => true | _ => false end.
Proof. intros w n n' A. inversion A; split; reflexivity. Qed.
Lemma sim_item_children : forall w base k k', kids2 (fun n n' => again w n n' /\ runs w n n') k k' -> forall c, ctx_at w c -> forall prev prev',
  match prev, prev' with None, None => True | Some a, Some b => again w a b | _, _ => False end ->
  same_gaps (match prev with Some a => [a] | None => [] end ++ map fst k) (match prev' with Some a => [a] | None => [] end ++ map fst k') ->
  sim (eq c) (eq c) (item_children o B base prev k) (item_children o B base prev' k').
Proof.
  intros w base k k' H c C. induction H as [|[n a] [n' a'] k k' ((A & R) & (nx & Ea) & ny & Eb) H IH]; intros prev prev' Pr G; [apply sim_nop|].
  cbn [fst snd map] in *. subst a a'. cbn [item_children].
  assert (G' : same_gaps ([n] ++ map fst k) ([n'] ++ map fst k')).
  { destruct prev, prev'; try contradiction; cbn [app same_gaps] in G; [exact (proj2 G)|exact G]. }
  eapply sim_seq; [|apply IH; [exact A|exact G']]. specialize (R c nx ny C).
  inversion A; subst; cbn [node_value node_pos]; try exact R.
  - (* paragraph *)
    eapply sim_seq; [|exact R]. destruct prev as [pn|], prev' as [pn'|]; try contradiction; [|apply sim_nop].
    destruct (again_newline _ _ _ Pr) as [_ En]. cbv zeta. rewrite En. eapply sim_seq; [apply sim_emit|]. apply sim_cx. apply sim_emit.
  - (* code *)
    apply sim_cx. eapply sim_seq; [apply sim_emit|]. apply sim_code. intro q. apply same_code_indented. assumption.
  - (* quote *)
    eapply sim_seq; [|eapply sim_seq; [apply sim_cx; apply sim_emit|exact R]]. destruct prev, prev'; try contradiction; apply sim_emit.
  - (* alert *)
    eapply sim_seq; [|eapply sim_seq; [apply sim_cx; apply sim_emit|exact R]]. destruct prev, prev'; try contradiction; apply sim_emit.
  - (* list *)
    cbv zeta. eapply sim_seq; [|exact R]. destruct prev as [pn|], prev' as [pn'|]; try contradiction; [|apply sim_emit].
    cbn [app same_gaps] in G. destruct G as [G _]. specialize (G ltac:(eexists _, _; reflexivity)). unfold source_gap in G. cbn [node_pos] in G.
    match goal with |- sim _ _ (emit (if ?x then _ else _)) (emit (if ?y then _ else _)) => assert (Q : x = y) by (clear - G; lia); rewrite Q end. apply sim_emit.
Qed.
Lemma last_again : forall w k k', kids2 (fun n n' => again w n n' /\ runs w n n') k k' ->
  match last_child k with Some n => if ends_with_newline_kind n then nop else emit [c_nl] | None => emit [c_nl] end
  = match last_child k' with Some n => if ends_with_newline_kind n then nop else emit [c_nl] | None => emit [c_nl] end.
Proof.
  intros w k k' H. induction H as [|[n a] [n' a'] k k' ((A & _) & _) H IH]; [reflexivity|]. cbn [last_child fst] in *.
  destruct H as [|[m b] [m' b'] k k' H1 H]; [|exact IH]. destruct (again_newline _ _ _ A) as [-> _]. reflexivity.
Qed.
Lemma sim_item : forall m d kind tight i c task task' k k', ctx_list m d kind tight i c ->
  (task = task' \/ exists x y, task = Some x /\ task' = Some y /\ (x = None <-> y = None)) ->
  kids2 (fun n n' => again (At 0 m (S d)) n n' /\ runs (At 0 m (S d)) n n') k k' -> same_gaps (map fst k) (map fst k') ->
  sim (eq c) (eq (set_index (list_item_index c + 1) c)) (list_item o B task k) (list_item o B task' k').
Proof.
  intros m d kind tight i c task task' k k' C T H G. unfold list_item. eapply sim_seq; [apply sim_updc; reflexivity|].
  cbv beta. set (c1 := set_index (list_item_index c + 1) c).
  assert (C1 : ctx_list m d kind tight (S i) c1) by (apply set_index_list; exact C).
  apply sim_cx.
  assert (Eh : item_head o c1 task = item_head o c1 task').
  { destruct T as [->|(x & y & -> & -> & T)]; [reflexivity|]. unfold item_head. do 4 f_equal. destruct x, y; try reflexivity; exfalso.
    - destruct T as [_ T]. discriminate (T eq_refl).
    - destruct T as [T _]. discriminate (T eq_refl). }
  rewrite Eh. eapply sim_seq; [apply sim_emit|]. rewrite (item_base_eq o cols _ _ _ _ _ _ C1).
  eapply sim_seq; [apply sim_updc; reflexivity|].
  eapply sim_seq; [apply (sim_item_children (At 0 m (S d))); [exact H|eapply item_ctx; exact C1|exact Logic.I|exact G]|].
  assert (Ex : set_item_indent (list_item_indent c1) (set_item_indent (spaces (4 * S d)) c1) = c1) by (destruct c1; reflexivity).
  eapply sim_seq; [apply sim_updc; reflexivity|]. rewrite Ex. rewrite (last_again _ _ _ H).
  destruct (last_child k') as [n|]; [|apply sim_emit]. destruct (ends_with_newline_kind n); [apply sim_nop|apply sim_emit].
Qed.
(** *** Tables *)
Lemma rcollect_same : forall cs cs', Forall2 (fun c c' => exists x evs, inline_content U ENT o src c = Ok (x, evs) /\ inline_content U ENT o src' c' = Ok (x, evs)) cs cs' ->
  rcollect (map (inline_content U ENT o src) cs) = rcollect (map (inline_content U ENT o src') cs').
Proof. intros cs cs' H. induction H as [|c c' cs cs' (x & evs & E & E') H IH]; [reflexivity|]. cbn [map rcollect]. rewrite E, E', IH. reflexivity. Qed.
Lemma table_rows_same : forall rows rows', same_cells U ENT o src src' rows rows' -> table_rows U ENT o src rows = table_rows U ENT o src' rows'.
Proof. intros rows rows' H. induction H as [|r r' rows rows' H1 H IH]; [reflexivity|]. cbn [table_rows]. rewrite (rcollect_same _ _ H1), IH. reflexivity. Qed.
Lemma sim_table : forall c p p' aligns rows rows', same_cells U ENT o src src' rows rows' ->
  sim (eq c) (eq c) (table U ENT o src p aligns rows) (table U ENT o src' p' aligns rows').
Proof.
  intros c p p' aligns rows rows' H. unfold table. assert (Q := table_rows_same _ _ H). rewrite <- Q. destruct H as [|r r' rows rows' H1 H]; [apply sim_nop|]. cbn [is_nil].
  eapply sim_seq; [apply sim_warn|]. destruct (table_rows U ENT o src (r :: rows)) as [[cells evs]|]; [|apply sim_panic].
  eapply sim_seq; [apply sim_events|]. apply sim_cx. apply sim_emit.
Qed.
(** *** Description lists *)
Lemma sim_get_indent : forall c Q k k', sim (eq c) Q (k (list_item_indent c)) (k' (list_item_indent c)) ->
  sim (eq c) Q (get (fun s => list_item_indent (cx s)) k) (get (fun s => list_item_indent (cx s)) k').
Proof.
  intros c Q k k' H s t s' L C E. unfold get in *. assert (Q0 : cx t = c) by (rewrite C; symmetry; apply L). rewrite Q0. rewrite <- C in E.
  exact (H s t s' L C E).
Qed.
Lemma sim_with_indent : forall i c a a', sim (eq (set_item_indent i c)) (eq (set_item_indent i c)) a a' ->
  sim (eq c) (eq c) (with_item_indent i a) (with_item_indent i a').
Proof.
  intros i c a a' H. unfold with_item_indent. apply sim_get_indent.
  eapply sim_seq; [apply sim_updc; reflexivity|]. eapply sim_seq; [exact H|].
  assert (Sm := sim_updc (set_item_indent i c) (set_item_indent (list_item_indent c)) (set_item_indent (list_item_indent c)) eq_refl).
  replace (set_item_indent (list_item_indent c) (set_item_indent i c)) with c in Sm by (destruct c; reflexivity). exact Sm.
Qed.
Lemma same_code_details : forall info literal info' literal' base k, same_code o B info literal info' literal' ->
  fst (code_block_with_indent o B k info literal base) = fst (code_block_with_indent o B k info' literal' base)
  /\ List.length (eff_calls (snd (code_block_with_indent o B k info literal base))) = List.length (eff_calls (snd (code_block_with_indent o B k info' literal' base))).
Proof.
  intros info literal info' literal' base k H. destruct (same_code_parts o B _ _ _ _ k H) as [E L]. unfold code_block_with_indent.
  destruct (code_parts o B k info literal) as [[i c] e], (code_parts o B k info' literal') as [[i' c'] e']. cbn [fst snd] in E, L. injection E as <- <-.
  split; [reflexivity|exact L].
Qed.
Definition quote_like (n : node) : Prop := match node_value n with NBlockQuote | NAlert _ => True | _ => False end.
Definition runs_quote (k d : nat) (n n' : node) : Prop := quote_like n -> forall c next next', quotable k d c -> sim (eq c) (eq c) (ser next n) (ser' next' n').
Lemma sim_detail_para : forall c mark n n', node_value n = NParagraph -> again (At 0 0 1) n n' ->
  sim (eq c) (eq c) (details_paragraph U ENT o src [] mark n) (details_paragraph U ENT o src' [] mark n').
Proof.
  intros c mark n n' V A. inversion A as [a k d ? ? ? ? x x' evs Un Un' Np Ic Ic' T| | | | | | | | | |]; subst; try discriminate V. unfold details_paragraph.
  eapply sim_seq; [apply sim_emit|]. rewrite Ic, Ic'. apply sim_inline. cbn [Nat.eqb] in T. destruct T as [Sp ->].
  change (line_start (At 0 0 1)) with ([] ++ lit "    ").
  rewrite (C45_wrap_first_again U (trim x) [] ([] ++ lit "    ") (line_width o) laws (or_introl eq_refl) (spaces_spaced 4) (Forall_nil _)); [apply sim_emit| |exact Sp].
  repeat constructor; discriminate.
Qed.
Lemma sim_details : forall k k' c, kids2 (fun n n' => detail_kind n /\ again (At 0 0 1) n n' /\ runs_quote 0 1 n n') k k' -> ctx_details c -> forall first,
  sim (eq c) (eq c) (details_children U ENT o B src [] first k) (details_children U ENT o B src' [] first k').
Proof.
  intros k k' c H C. induction H as [|[n a] [n' a'] k k' ((D & A & R) & (nx & Ea) & ny & Eb) H IH]; intro first; [apply sim_nop|].
  cbn [fst snd] in *. subst a a'. cbn [details_children].
  eapply sim_seq; [|apply IH]. assert (Qt := details_quotable c C).
  assert (Rq : quote_like n -> sim (eq c) (eq c) (with_item_indent (lit "    ") (ser nx n)) (with_item_indent (lit "    ") (ser' ny n'))).
  { intro Q. apply sim_with_indent. apply R; assumption. }
  inversion A; subst; try contradiction D; cbn [node_value].
  - destruct first; [|eapply sim_seq; [apply sim_emit|]]; apply sim_detail_para; try reflexivity; exact A.
  - destruct first; [|eapply sim_seq; [apply sim_emit|]]; (eapply sim_seq; [apply sim_emit|]); apply sim_code; intro q; apply same_code_details; assumption.
  - destruct first; (eapply sim_seq; [apply sim_emit|]); apply Rq; exact Logic.I.
  - destruct first; (eapply sim_seq; [apply sim_emit|]); apply Rq; exact Logic.I.
Qed.
Lemma sim_description_details : forall k k' c, kids2 (fun n n' => detail_kind n /\ again (At 0 0 1) n n' /\ runs_quote 0 1 n n') k k' -> ctx_at (At 0 0 0) c ->
  sim (eq c) (eq c) (description_details U ENT o B src k) (description_details U ENT o B src' k').
Proof.
  intros k k' c H C. unfold description_details. apply sim_cx. rewrite (ca_quote _ _ C). cbn [marks Nat.eqb negb].
  eapply sim_seq; [apply sim_updc; reflexivity|]. eapply sim_seq; [apply sim_details; [exact H|exists c; split; [exact C|reflexivity]]|].
  assert (Sm := sim_updc (set_in_details true c) (set_in_details (in_description_details c)) (set_in_details (in_description_details c)) eq_refl).
  replace (set_in_details (in_description_details c) (set_in_details true c)) with c in Sm by (destruct c; reflexivity). exact Sm.
Qed.
Lemma sim_description_list : forall k k' c, kids2 (fun n n' => runs (At 0 0 0) n n') k k' -> ctx_at (At 0 0 0) c -> forall first,
  sim (eq c) (eq c) (description_list first k) (description_list first k').
Proof.
  intros k k' c H C. induction H as [|[n a] [n' a'] k k' (R & (nx & Ea) & ny & Eb) H IH]; intro first; [apply sim_nop|].
  cbn [fst snd] in *. subst a a'. cbn [description_list]. eapply sim_seq; [|eapply sim_seq; [apply R; exact C|apply IH]].
  destruct first; [apply sim_nop|]. apply sim_cx. destruct (in_block_quote c); apply sim_emit.
Qed.
(** *** Every block *)
Lemma ok_quote : forall k d, k = 0 \/ d = 0 -> ok_place (At d (S k) 0).
Proof. intros k d [->| ->]; [right; split; reflexivity|left; split; [reflexivity|]; right; left; reflexivity]. Qed.
Lemma ok_item : forall k d, k <= 1 -> ok_place (At 0 k (S d)).
Proof. intros k d H. left. split; [reflexivity|]. cbn [marks inner]. lia. Qed.
Lemma again_runs : forall n, (forall w n', ok_place w -> again w n n' -> runs w n n')
  /\ (forall m d kind tight n', m <= 1 -> again_item (At 0 m (S d)) n n' -> runs_item m d kind tight n n')
  /\ (forall k d n', again (At 0 k d) n n' -> runs_quote k d n n')
  /\ (forall n', again_entry n n' -> runs (At 0 0 0) n n')
  /\ (forall w, ok_place w -> forall cs', Forall2 (again w) (node_children n) cs' -> kids2 (runs w) (combine (node_children n) (with_next ser (node_children n))) (combine cs' (with_next ser' cs')))
  /\ (forall cs', Forall detail_kind (node_children n) -> Forall2 (again (At 0 0 1)) (node_children n) cs' ->
        kids2 (fun n n' => detail_kind n /\ again (At 0 0 1) n n' /\ runs_quote 0 1 n n') (combine (node_children n) (with_next ser (node_children n))) (combine cs' (with_next ser' cs'))).
Proof.
  induction n as [v p cs IH] using node_ind'.
  assert (K : forall w, ok_place w -> forall cs', Forall2 (again w) cs cs' ->
     kids2 (fun n n' => again w n n' /\ runs w n n') (combine cs (with_next ser cs)) (combine cs' (with_next ser' cs'))).
  { intros w Ow cs' F. apply kids2_next. clear - IH F Ow. induction F as [|c c' cs cs' A F IHF]; [constructor|]. inversion IH as [|? ? [I1 _] I2]; subst.
    constructor; [split; [exact A|apply I1; assumption]|apply IHF; exact I2]. }
  assert (K2 : forall w, ok_place w -> forall cs', Forall2 (again w) cs cs' -> kids2 (runs w) (combine cs (with_next ser cs)) (combine cs' (with_next ser' cs'))).
  { intros w Ow cs' F. specialize (K w Ow cs' F). clear - K. induction K as [|x y k k' ((_ & R) & X) H IH]; constructor; [split; assumption|exact IH]. }
  assert (MF : forall (s : option node -> node -> act) l, map fst (combine l (with_next s l)) = l).
  { clear. intros s l. induction l as [|c l IH]; [reflexivity|]. cbn [with_next combine map fst]. rewrite IH. reflexivity. }
  assert (Qk : forall k d n', again (At 0 k d) (Node v p cs) n' -> runs_quote k d (Node v p cs) n').
  { intros k d n' A Ql c next next' C. unfold ser, ser'. inversion A; subst; try contradiction Ql; cbn [serialize]; cbv zeta; fold ser; fold ser'.
    - eapply sim_block_quote; [exact C|]. apply K2; [apply ok_quote|]; assumption.
    - eapply sim_alert; [exact C| |apply K2; [apply ok_quote|]; assumption].
      match goal with H : title_gap _ _ <-> title_gap _ _ |- _ => rewrite <- (gap_below_title _ _ ser), <- (gap_below_title _ _ ser') in H;
        match goal with |- ?x = ?y => destruct x, y; try reflexivity; exfalso; [discriminate (proj1 H eq_refl)|discriminate (proj2 H eq_refl)] end end. }
  split; [|split; [|split; [|split; [|split]]]].
  - intros w n' Ow A c next next' C. unfold ser, ser'.
    inversion A; subst; cbn [serialize]; cbv zeta; fold ser; fold ser'.
    + eapply sim_paragraph; eassumption.
    + unfold heading. match goal with H : collect_text _ _ _ src _ = _, H' : collect_text _ _ _ src' _ = _ |- _ => rewrite H, H' end.
      apply sim_inline. match goal with H : cased _ _ _ _ _ = cased _ _ _ _ _ |- _ => rename H into Hc end.
      intros s1 s2 s' L C0 E. destruct (L) as (_ & _ & _ & _ & _ & (N1 & N2) & (N3 & N4) & _). unfold get in *. rewrite N1, N3 in E. rewrite N2, N4.
      unfold heading_output in *. unfold cased in Hc. cbv zeta in *. rewrite Hc. exact (sim_emit (eq c) _ s1 s2 s' L C0 E).
    + apply sim_cx. apply sim_code. intro q. apply same_code_block. assumption.
    + unfold thematic_break. apply sim_cx. apply sim_emit.
    + apply sim_table. assumption.
    + match goal with H : trim _ = trim _ |- _ => rewrite H end. apply sim_emit.
    + apply sim_emit.
    + apply (Qk _ _ _ A Logic.I c next next'). apply ctx_quotable. exact C.
    + apply (Qk _ _ _ A Logic.I c next next'). apply ctx_quotable. exact C.
    + eapply sim_list; [exact C|]. apply kids2_next.
      match goal with H : Forall2 _ cs _, L : _ <= 1 |- _ => clear - IH H L; induction H as [|x y xs ys A F IHF] end; [constructor|].
      inversion IH as [|? ? (_ & I1 & _) I2]; subst. constructor; [|apply IHF; exact I2]. split; [inversion A; split; (discriminate || reflexivity)|].
      apply I1; assumption.
    + apply sim_description_list; [|exact C]. apply kids2_next.
      match goal with H : Forall2 _ cs _ |- _ => clear - IH H; induction H as [|x y xs ys A F IHF] end; [constructor|].
      inversion IH as [|? ? (_ & _ & _ & I1 & _) I2]; subst. constructor; [|apply IHF; exact I2]. apply I1. exact A.
  - intros m d kind tight n' Lm A i c next next' C. unfold ser, ser'.
    inversion A; subst; cbn [serialize]; cbv zeta; fold ser; fold ser'.
    + eapply sim_item; [exact C|left; reflexivity|apply K; [apply ok_item|]; assumption|]. rewrite !MF. assumption.
    + eapply sim_item; [exact C|right; eexists _, _; split; [reflexivity|]; split; [reflexivity|assumption]|apply K; [apply ok_item|]; assumption|]. rewrite !MF. assumption.
  - exact Qk.
  - intros n' A c next next' C. unfold ser, ser'. inversion A; subst; cbn [serialize]; cbv zeta; fold ser; fold ser'.
    assert (O0 : ok_place (At 0 0 0)) by (left; split; [reflexivity|left; reflexivity]).
    inversion IH as [|? ? (_ & _ & _ & _ & I1 & _) I2]; subst. apply Forall_inv in I2. destruct I2 as (_ & _ & _ & _ & _ & I2). cbn [node_children] in I1, I2.
    cbn [with_next combine]. unfold children_acts at 1 2. cbn [map all fold_right snd].
    eapply sim_seq; [|eapply sim_seq; [|apply sim_nop]].
    + unfold ser, ser'. cbn [serialize]. cbv zeta. fold ser. fold ser'.
      specialize (I1 (At 0 0 0) O0 [t']). cbn [with_next combine] in I1. unfold children_acts. cbn [with_next combine map all fold_right snd].
      eapply sim_seq; [|apply sim_nop]. assert (I3 := I1 ltac:(constructor; [assumption|constructor])). inversion I3 as [|? ? ? ? (R & _) _]; subst. apply R. exact C.
    + unfold ser, ser'. cbn [serialize]. cbv zeta. fold ser. fold ser'. apply sim_description_details; [|exact C]. apply I2; assumption.
  - exact K2.
  - intros cs' D F. cbn [node_children] in *. apply kids2_next. clear - IH F D. induction F as [|c c' cs cs' A F IHF]; [constructor|].
    inversion IH as [|? ? (_ & _ & I1 & _) I2]; subst. inversion D; subst. constructor; [|apply IHF; assumption]. split; [assumption|]. split; [exact A|]. apply I1. exact A.
Qed.
End Blocks.
End Near.
