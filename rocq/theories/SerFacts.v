(** Basic facts about actions of the serializer and about flushing. *)
From Coq Require Import Bool Arith NArith Lia ZifyBool ZifyNat ZifyN String List Sorted Permutation.
From Verif Require Import Base BaseFacts OptsModel CodeModel AstModel StateModel InlineModel WarnModel SerModel SpecState StateProof.
Import ListNotations.

Lemma rbind_ok : forall A B (m : res A) (f : A -> res B) b,
  rbind m f = Ok b <-> exists a, m = Ok a /\ f a = Ok b.
Proof.
  intros A B m f b. destruct m as [a|]; cbn [rbind]; split.
  - eauto.
  - intros (a' & E & H). injection E as <-. exact H.
  - discriminate.
  - intros (a' & E & _). discriminate.
Qed.
Lemma seqa_ok : forall (a b : act) s s', (a ;; b) s = Ok s' <-> exists m, a s = Ok m /\ b m = Ok s'.
Proof. intros. unfold seqa. apply rbind_ok. Qed.
Lemma seqa_assoc : forall (a b c : act) s, ((a ;; b) ;; c) s = (a ;; b ;; c) s.
Proof. intros. unfold seqa. destruct (a s); reflexivity. Qed.
Lemma all_app : forall l m s, all (l ++ m) s = (all l ;; all m) s.
Proof.
  induction l as [|a l IH]; intros m s; [reflexivity|]. cbn [app all fold_right]. fold (all (l ++ m)). fold (all l).
  unfold seqa in *. destruct (a s) as [s1|]; [|reflexivity]. cbn [rbind]. apply IH.
Qed.
Lemma all_cons : forall a l s, all (a :: l) s = (a ;; all l) s.
Proof. reflexivity. Qed.

(** ** Numbers *)
Lemma digits_val_snoc : forall s acc d, digits_val acc (s ++ [d]) =
  match digits_val acc s with
  | Some v => if is_ascii_digit d then Some (v * 10 + (d - 48))%N else None
  | None => None
  end.
Proof.
  induction s as [|c s IH]; intros acc d; cbn [app digits_val]; [reflexivity|].
  destruct (is_ascii_digit c); [apply IH|reflexivity].
Qed.
Lemma digits_iff : forall s n, digits s n <-> s <> [] /\ digits_val 0%N s = Some n.
Proof.
  intros s n. split.
  - intro H. induction H as [d Hd|s n d H [Hs IH] Hd].
    + split; [discriminate|]. cbn [digits_val]. unfold is_ascii_digit.
      replace ((48 <=? d) && (d <=? 57))%N with true by lia. apply f_equal; lia.
    + split; [destruct s; discriminate|]. rewrite digits_val_snoc, IH. unfold is_ascii_digit.
      replace ((48 <=? d) && (d <=? 57))%N with true by lia. apply f_equal; lia.
  - intros [Hne H]. revert n H. induction s as [|d s IH] using rev_ind; intros n H; [congruence|].
    rewrite digits_val_snoc in H. destruct (digits_val 0%N s) as [v|] eqn:V; [|discriminate].
    destruct (is_ascii_digit d) eqn:D; [|discriminate]. injection H as <-. unfold is_ascii_digit in D.
    destruct s as [|c s].
    + cbn [digits_val] in V. injection V as <-. cbn [app].
      replace (0 * 10 + (d - 48))%N with (d - 48)%N by lia. constructor. lia.
    + replace (v * 10 + (d - 48))%N with (10 * v + (d - 48))%N by lia. constructor; [|lia].
      apply IH; [discriminate|reflexivity].
Qed.
Lemma digits_head : forall s n c r, digits s n -> s = c :: r -> (48 <= c <= 57)%N.
Proof.
  intros s n c r H. revert c r. induction H as [d Hd|s n d H IH Hd]; intros c r E.
  - injection E as <- <-. exact Hd.
  - destruct s as [|x s]; [cbn in E; injection E as <- <-; exact Hd|]. cbn in E. injection E as <- <-.
    eapply IH. reflexivity.
Qed.
Lemma numeric_name_iff : forall s n, parse_uint u64_max s = Some n <-> numeric_name s n.
Proof.
  intros s n. unfold parse_uint, numeric_name. split.
  - intro H. set (body := match s with c :: r => if ceq c c_plus then r else s | [] => s end) in H.
    assert (B : s = body \/ s = [c_plus] ++ body).
    { unfold body. destruct s as [|c r]; [auto|]. destruct (ceq_spec c c_plus) as [->|]; auto. }
    clearbody body. destruct body as [|x body]; [discriminate|].
    destruct (digits_val 0%N (x :: body)) as [v|] eqn:V; [|discriminate].
    destruct (v <=? u64_max)%N eqn:L; [|discriminate]. injection H as <-.
    exists (x :: body). split; [exact B|]. split; [|unfold u64_max in L; lia].
    apply digits_iff. split; [discriminate|exact V].
  - intros (ds & B & D & L). destruct ds as [|x ds].
    { apply digits_iff in D. destruct D as [D _]. congruence. }
    pose proof (digits_head _ _ x ds D eq_refl) as Hx. apply digits_iff in D. destruct D as [_ D].
    assert (E : match s with c :: r => if ceq c c_plus then r else s | [] => s end = x :: ds).
    { destruct B as [->| ->].
      - destruct (ceq_spec x c_plus) as [->|]; [unfold c_plus in Hx; lia|reflexivity].
      - cbn [app]. rewrite ceq_refl. reflexivity. }
    unfold str in *. rewrite E, D. replace (n <=? u64_max)%N with true by (unfold u64_max; lia). reflexivity.
Qed.
Lemma numeric_label_iff : forall s n, extract_numeric_label s = Some n <-> numeric_label s n.
Proof.
  intros s n. unfold extract_numeric_label, numeric_label. destruct (strip_prefix [c_hash] s) as [r|] eqn:P.
  - apply strip_prefix_some in P. subst s. rewrite numeric_name_iff. split; [intro H; right; eauto|].
    intros [(ds & B & D & _)|(r' & E & H)].
    + exfalso. destruct B as [B|B]; [|discriminate]. cbn [app] in B. symmetry in B.
      pose proof (digits_head _ _ _ _ D B). unfold c_hash in *. lia.
    + injection E as <-. exact H.
  - rewrite numeric_name_iff. split; [auto|]. intros [H|(r' & E & _)]; [exact H|].
    subst s. cbn in P. discriminate.
Qed.

(** ** Order of a flush *)
Section Order.
Variable A : Type.
Variable num : A -> option N.
Variable R : A -> N -> Prop.
Hypothesis RN : forall x n, R x n <-> num x = Some n.

Lemma selects_filter : forall B (P : B -> Prop) (p : B -> bool), (forall x, P x <-> p x = true) ->
  forall l, selects P l (filter p l).
Proof.
  intros B P p H l. induction l as [|x l IH]; cbn [filter]; [constructor|].
  destruct (p x) eqn:E; constructor; auto; rewrite H; congruence.
Qed.
Lemma selects_unique : forall B (P : B -> Prop) (p : B -> bool), (forall x, P x <-> p x = true) ->
  forall l m, selects P l m -> m = filter p l.
Proof.
  intros B P p H l m S. induction S as [|x l m Px S IH|x l m Px S IH]; cbn [filter]; [reflexivity| |].
  - rewrite (proj1 (H x) Px), IH. reflexivity.
  - destruct (p x) eqn:E; [exfalso; apply Px; apply H; exact E|exact IH].
Qed.

Definition tagged (l : list (N * A)) : Prop := Forall (fun y => num (snd y) = Some (fst y)) l.

Lemma numeric_of_tagged : forall l, tagged (numeric_of num l).
Proof.
  induction l as [|x l IH]; [constructor|]. cbn [numeric_of flat_map]. fold (numeric_of num l).
  destruct (num x) as [n|] eqn:E; [constructor; auto|exact IH].
Qed.
Lemma numeric_of_snd : forall l, map snd (numeric_of num l) = filter (fun x => match num x with Some _ => true | None => false end) l.
Proof.
  induction l as [|x l IH]; [reflexivity|]. cbn [numeric_of flat_map filter]. fold (numeric_of num l).
  destruct (num x) as [n|]; cbn [app map snd]; rewrite IH; reflexivity.
Qed.
Lemma insert_perm : forall (x : N * A) l, Permutation (x :: l) (insert_by_key x l).
Proof.
  induction l as [|y l IH]; [reflexivity|]. cbn [insert_by_key]. destruct (_ <=? _)%N; [reflexivity|].
  etransitivity; [apply perm_swap|]. constructor. exact IH.
Qed.
Lemma sort_perm : forall l : list (N * A), Permutation l (sort_by_key l).
Proof.
  induction l as [|x l IH]; [reflexivity|]. cbn [sort_by_key fold_right]. fold (sort_by_key l).
  etransitivity; [constructor; exact IH|apply insert_perm].
Qed.
Lemma insert_sorted : forall (x : N * A) l, StronglySorted (fun a b => (fst a <= fst b)%N) l ->
  StronglySorted (fun a b => (fst a <= fst b)%N) (insert_by_key x l).
Proof.
  intros x l H. induction H as [|y l H IH F]; cbn [insert_by_key]; [repeat constructor|].
  destruct (fst x <=? fst y)%N eqn:E.
  - constructor; [constructor; assumption|]. constructor; [lia|].
    eapply Forall_impl; [|exact F]. intros a Ha. cbn beta in Ha. lia.
  - constructor; [exact IH|]. eapply Permutation_Forall; [apply insert_perm|]. constructor; [lia|exact F].
Qed.
Lemma sort_sorted : forall l : list (N * A), StronglySorted (fun a b => (fst a <= fst b)%N) (sort_by_key l).
Proof.
  induction l as [|x l IH]; [constructor|]. cbn [sort_by_key fold_right]. apply insert_sorted. exact IH.
Qed.
Lemma insert_stable : forall n (x : N * A) l, filter (fun y => N.eqb (fst y) n) (insert_by_key x l)
  = filter (fun y => N.eqb (fst y) n) (x :: l).
Proof.
  intros n x l. induction l as [|y l IH]; [reflexivity|]. cbn [insert_by_key].
  destruct (fst x <=? fst y)%N eqn:E; [reflexivity|]. cbn [filter] in *. rewrite IH.
  destruct (N.eqb_spec (fst y) n); destruct (N.eqb_spec (fst x) n); try reflexivity. lia.
Qed.
Lemma sort_stable : forall n (l : list (N * A)), filter (fun y => N.eqb (fst y) n) (sort_by_key l)
  = filter (fun y => N.eqb (fst y) n) l.
Proof.
  intros n l. induction l as [|x l IH]; [reflexivity|]. cbn [sort_by_key fold_right]. fold (sort_by_key l).
  rewrite insert_stable. cbn [filter]. rewrite IH. reflexivity.
Qed.
Lemma tagged_filter : forall n l, tagged l ->
  map snd (filter (fun y => N.eqb (fst y) n) l)
  = filter (fun x => match num x with Some m => N.eqb m n | None => false end) (map snd l).
Proof.
  intros n l H. induction H as [|y l Hy H IH]; [reflexivity|]. cbn [filter map]. rewrite Hy.
  destruct (N.eqb (fst y) n); cbn [map]; rewrite IH; reflexivity.
Qed.
Lemma tagged_sorted : forall l, tagged l -> StronglySorted (fun a b => (fst a <= fst b)%N) l ->
  in_order R (map snd l).
Proof.
  intros l T S. unfold in_order. induction S as [|y l S IH F]; [constructor|]. inversion T as [|? ? Ty Tl]; subst.
  cbn [map]. constructor; [apply IH; exact Tl|]. apply Forall_map.
  apply Forall_forall. intros z I m n Hm Hn. rewrite Forall_forall in F. specialize (F z I). cbn beta in F.
  unfold tagged in Tl. rewrite Forall_forall in Tl. specialize (Tl z I). cbn beta in Tl.
  apply RN in Hm. apply RN in Hn. rewrite Hm in Ty. rewrite Hn in Tl. injection Ty as ->. injection Tl as ->. exact F.
Qed.

Theorem flush_order_spec : forall l, section_order R l (flush_order num l).
Proof.
  intros l.
  exists (filter (fun x => match num x with Some _ => true | None => false end) l), (regular_of num l).
  assert (Hn : forall x, (exists n, R x n) <-> match num x with Some _ => true | None => false end = true).
  { intro x. split; [intros [n H]; apply RN in H; rewrite H; reflexivity|].
    destruct (num x) as [n|] eqn:E; [|discriminate]. intros _. exists n. apply RN. exact E. }
  split; [apply selects_filter; exact Hn|]. split.
  { apply selects_filter. intro x. split.
    - intro H. destruct (num x) as [n|] eqn:E; [|reflexivity]. exfalso. apply (H n). apply RN. exact E.
    - intros H n Rx. apply RN in Rx. rewrite Rx in H. discriminate. }
  rewrite <- numeric_of_snd, map_length. unfold flush_order. split; intro L.
  - replace (List.length (numeric_of num l) <? 2) with true by lia. reflexivity.
  - replace (List.length (numeric_of num l) <? 2) with false by lia.
    pose proof (numeric_of_tagged l) as T.
    assert (TS : tagged (sort_by_key (numeric_of num l))) by (eapply Permutation_Forall; [apply sort_perm|exact T]).
    exists (map snd (sort_by_key (numeric_of num l))). split; [reflexivity|].
    split; [apply Permutation_map, sort_perm|]. split; [apply tagged_sorted; [exact TS|apply sort_sorted]|].
    intros n same S.
    assert (Hb : forall x, R x n <-> match num x with Some m => N.eqb m n | None => false end = true).
    { intro x. rewrite RN. destruct (num x) as [m|]; [|split; discriminate]. rewrite N.eqb_eq.
      split; [intro Q; injection Q as ->; reflexivity|intros ->; reflexivity]. }
    apply (selects_unique _ _ _ Hb) in S. subst same.
    rewrite <- tagged_filter by exact T. rewrite <- sort_stable, tagged_filter by exact TS.
    apply selects_filter. exact Hb.
Qed.

Lemma section_order_perm : forall l out, section_order R l out -> Permutation l out.
Proof.
  intros l out (numbered & plain & S1 & S2 & H1 & H2).
  assert (Hn : forall x, (exists n, R x n) <-> match num x with Some _ => true | None => false end = true).
  { intro x. split; [intros [n H]; apply RN in H; rewrite H; reflexivity|].
    destruct (num x) as [n|] eqn:E; [|discriminate]. intros _. exists n. apply RN. exact E. }
  assert (Hp : forall x, (forall n, ~ R x n) <-> match num x with Some _ => false | None => true end = true).
  { intro x. split.
    - intro H. destruct (num x) as [n|] eqn:E; [|reflexivity]. exfalso. apply (H n). apply RN. exact E.
    - intros H n Rx. apply RN in Rx. rewrite Rx in H. discriminate. }
  apply (selects_unique _ _ _ Hn) in S1. apply (selects_unique _ _ _ Hp) in S2.
  destruct (le_lt_dec (List.length numbered) 1) as [L|L]; [rewrite (H1 L); reflexivity|].
  destruct (H2 L) as (sorted & -> & P & _). subst plain numbered.
  etransitivity; [|apply Permutation_app_head; exact P].
  clear. induction l as [|x l IH]; [reflexivity|]. cbn [filter]. destruct (num x) as [n|].
  - etransitivity; [constructor; exact IH|]. apply Permutation_middle.
  - cbn [app]. constructor. exact IH.
Qed.
End Order.

(** ** Insertion-ordered maps *)
Lemma imap_insert_keys : forall A k (v : A) m,
  map fst (imap_insert k v m) = if mem k (map fst m) then map fst m else map fst m ++ [k].
Proof.
  intros A k v m. unfold mem. induction m as [|[k' v'] m IH]; [reflexivity|]. cbn [imap_insert map fst existsb].
  destruct (seqb k k') eqn:E; cbn [map fst orb]; [reflexivity|]. rewrite IH.
  destruct (existsb (seqb k) (map fst m)); reflexivity.
Qed.
Lemma mem_true : forall k l, mem k l = true <-> In k l.
Proof.
  intros k l. unfold mem. rewrite existsb_exists. split.
  - intros (x & I & E). apply seqb_true in E. subst. exact I.
  - intro I. exists k. split; [exact I|apply seqb_refl].
Qed.
Lemma mem_false : forall k l, mem k l = false <-> ~ In k l.
Proof. intros k l. rewrite <- mem_true. destruct (mem k l); split; congruence. Qed.
Lemma imap_insert_nodup : forall A k (v : A) m, NoDup (map fst m) -> NoDup (map fst (imap_insert k v m)).
Proof.
  intros A k v m H. rewrite imap_insert_keys. destruct (mem k (map fst m)) eqn:E; [exact H|].
  apply mem_false in E. apply (Permutation_NoDup (l := k :: map fst m)); [apply Permutation_cons_append|].
  constructor; assumption.
Qed.
Lemma imap_insert_in : forall A k (v : A) m x, In x (imap_insert k v m) ->
  x = (k, v) \/ In x m.
Proof.
  intros A k v m x. induction m as [|[k' v'] m IH]; cbn [imap_insert]; intro I.
  - destruct I as [<-|[]]. auto.
  - destruct (seqb k k') eqn:E; destruct I as [<-|I].
    + apply seqb_true in E. subst. auto.
    + right. right. exact I.
    + right. left. reflexivity.
    + destruct (IH I) as [->|J]; [auto|right; right; exact J].
Qed.
Lemma imap_insert_new : forall A k (v : A) m, In (k, v) (imap_insert k v m).
Proof.
  intros A k v m. induction m as [|[k' v'] m IH]; cbn [imap_insert]; [left; reflexivity|].
  destruct (seqb k k') eqn:E; [apply seqb_true in E; subst; left; reflexivity|right; exact IH].
Qed.
Lemma imap_insert_old : forall A k (v : A) m k' v', k' <> k -> In (k', v') m -> In (k', v') (imap_insert k v m).
Proof.
  intros A k v m k' v' N. induction m as [|[k2 v2] m IH]; cbn [imap_insert]; intro I; [destruct I|].
  destruct (seqb k k2) eqn:E.
  - destruct I as [Q|I]; [|right; exact I]. injection Q as -> ->. apply seqb_true in E. congruence.
  - destruct I as [Q|I]; [left; exact Q|right; apply IH; exact I].
Qed.
Lemma imap_insert_snoc : forall A k (v : A) m, ~ In k (map fst m) -> imap_insert k v m = m ++ [(k, v)].
Proof.
  intros A k v m. induction m as [|[k' v'] m IH]; cbn [imap_insert map fst]; intro N; [reflexivity|].
  destruct (seqb k k') eqn:E; [apply seqb_true in E; subst; exfalso; apply N; left; reflexivity|].
  cbn [app]. f_equal. apply IH. intro I. apply N. right. exact I.
Qed.
Lemma reinsert_id : forall A (l : list (str * A)), NoDup (map fst l) -> reinsert l = l.
Proof.
  intros A l H. unfold reinsert.
  assert (G : forall l (m : list (str * A)), NoDup (map fst (m ++ l)) ->
    fold_left (fun m kv => imap_insert (fst kv) (snd kv) m) l m = m ++ l).
  { clear. induction l as [|[k v] l IH]; intros m H; [rewrite app_nil_r; reflexivity|]. cbn [fold_left fst snd].
    rewrite map_app in H. cbn [map fst] in H.
    assert (N : ~ In k (map fst m)).
    { intro I. apply NoDup_remove_2 in H. apply H. apply in_or_app. left. exact I. }
    rewrite imap_insert_snoc by exact N. rewrite IH; rewrite <- app_assoc; [reflexivity|].
    cbn [app]. rewrite map_app. exact H. }
  apply (G l []). exact H.
Qed.

(** ** Writing definitions *)
Definition written_reference (s : st) (r : reference) : st :=
  let s1 := set_trace (trace s ++ [Def r]) s in
  let s2 := set_output (output s1 ++ reference_text r) s1 in
  set_emitted (set_insert (ref_label r) (emitted_references s2)) s2.
Lemma write_reference_eq : forall r s, write_reference r s = Ok (written_reference s r).
Proof. reflexivity. Qed.
Lemma write_references_eq : forall l s, all (map write_reference l) s = Ok (fold_left written_reference l s).
Proof.
  induction l as [|r l IH]; intro s; [reflexivity|]. cbn [map fold_left]. rewrite all_cons. unfold seqa.
  rewrite write_reference_eq. cbn [rbind]. apply IH.
Qed.
Lemma fold_written : forall l s, let s' := fold_left written_reference l s in
  output s' = output s ++ flat_map reference_text l
  /\ trace s' = trace s ++ map Def l
  /\ cx s' = cx s /\ pending_references s' = pending_references s /\ footnotes s' = footnotes s
  /\ skip s' = skip s /\ warnings s' = warnings s /\ proper_nouns s' = proper_nouns s
  /\ common_nouns s' = common_nouns s /\ calls s' = calls s
  /\ forall k, In k (emitted_references s') <-> In k (emitted_references s) \/ In k (map ref_label l).
Proof.
  induction l as [|r l IH]; intro s; cbv zeta; cbn [fold_left flat_map map].
  - rewrite !app_nil_r. repeat split; auto. intros [H|[]]; exact H.
  - specialize (IH (written_reference s r)). cbv zeta in IH.
    destruct IH as (H1 & H2 & H3 & H4 & H5 & H6 & H7 & H8 & H9 & H10 & H11).
    rewrite H1, H2, H3, H4, H5, H6, H7, H8, H9, H10. unfold written_reference. cbn [output trace cx
      pending_references footnotes skip warnings proper_nouns common_nouns calls set_output set_trace set_emitted].
    rewrite <- !app_assoc. cbn [app]. repeat split; auto.
    + intro I. apply H11 in I. cbn [emitted_references set_emitted set_output set_trace written_reference] in I.
      unfold set_insert in I. destruct (mem (ref_label r) (emitted_references s)); cbn [In] in *; tauto.
    + intro I. apply H11. cbn [emitted_references set_emitted set_output set_trace written_reference].
      unfold set_insert. destruct (mem (ref_label r) (emitted_references s)) eqn:M; cbn [In] in *; [|tauto].
      apply mem_true in M. destruct I as [I|[<-|I]]; auto.
Qed.

(** The blank line before a section. *)
Definition blank_before (out : str) : str :=
  if ends_with [c_nl; c_nl] out then [] else if ends_with [c_nl] out then [c_nl] else [c_nl; c_nl].
Lemma ensure_blank_line_eq : forall s, ensure_blank_line s = Ok (set_output (output s ++ blank_before (output s)) s).
Proof.
  intro s. unfold ensure_blank_line, blank_before, get, emit, upd, nop.
  destruct (ends_with [c_nl; c_nl] (output s)); [rewrite app_nil_r; destruct s; reflexivity|].
  destruct (ends_with [c_nl] (output s)); reflexivity.
Qed.

(** What is still to be written. *)
Definition live_references (s : st) : list reference :=
  filter (fun r => negb (mem (ref_label r) (emitted_references s))) (map snd (pending_references s)).
Definition reference_order (l : list reference) : list reference :=
  flush_order (fun r => extract_numeric_label (ref_label r)) l.
Definition section_text (out : str) (body : str) (empty : bool) : str :=
  if empty then [] else blank_before out ++ body.
Lemma flush_references_eq : forall s, exists s',
  flush_references s = Ok s'
  /\ output s' = output s ++ section_text (output s) (flat_map reference_text (reference_order (live_references s)))
                   (is_nil (live_references s))
  /\ trace s' = trace s ++ map Def (reference_order (live_references s))
  /\ cx s' = cx s /\ pending_references s' = [] /\ footnotes s' = footnotes s
  /\ skip s' = skip s /\ warnings s' = warnings s /\ proper_nouns s' = proper_nouns s
  /\ common_nouns s' = common_nouns s /\ calls s' = calls s
  /\ forall k, In k (emitted_references s') <->
       In k (emitted_references s) \/ In k (map ref_label (reference_order (live_references s))).
Proof.
  intro s. unfold flush_references, get. destruct (pending_references s) as [|p ps] eqn:P.
  - exists s. unfold live_references, section_text. rewrite P. cbn. rewrite !app_nil_r.
    repeat split; auto. intros [H|[]]; exact H.
  - cbn [is_nil]. change (map snd (p :: ps)) with (map (@snd str reference) (p :: ps)). rewrite <- P.
    fold (live_references s). unfold seqa, upd. cbn [rbind].
    destruct (live_references s) as [|l ls] eqn:L.
    + cbn [is_nil]. exists (set_pending [] s). unfold section_text. cbn. rewrite !app_nil_r.
      repeat split; auto. intros [H|[]]; exact H.
    + cbn [is_nil]. rewrite ensure_blank_line_eq. cbn [rbind]. rewrite write_references_eq.
      fold (reference_order (l :: ls)).
      set (s1 := set_output _ _).
      pose proof (fold_written (reference_order (l :: ls)) s1) as W. cbv zeta in W.
      destruct W as (H1 & H2 & H3 & H4 & H5 & H6 & H7 & H8 & H9 & H10 & H11).
      exists (fold_left written_reference (reference_order (l :: ls)) s1). split; [reflexivity|].
      rewrite H1, H2, H3, H4, H5, H6, H7, H8, H9, H10. unfold section_text. cbn [is_nil].
      repeat split; try (intro I; apply H11 in I; exact I); try (intro I; apply H11; exact I).
      cbn [output s1 set_output]. rewrite <- app_assoc. reflexivity.
Qed.

Section Footnotes.
Variable U : Uni.
Variable o : Options.
Variable checks : bool.

Definition written_footnote (s : st) (f : footnote) (text : str) : st :=
  let s1 := set_trace (trace s ++ [Footnote f]) s in
  let s2 := set_output (output s1 ++ text) s1 in
  let g := footnotes s2 in
  set_footnotes (mkFootnotes (f_pending g) (set_insert (fn_name f) (f_emitted g)) (f_reference_lines g)
    (f_collecting g) (f_current_line g) (f_pending_references g)) s2.
Lemma write_footnote_ok : forall f s s', write_footnote U o checks f s = Ok s' <->
  exists text, footnote_text U o checks f = Ok text /\ s' = written_footnote s f text.
Proof.
  intros f s s'. unfold write_footnote. destruct (footnote_text U o checks f) as [text|].
  - split.
    + intro H. exists text. split; [reflexivity|]. injection H as <-. reflexivity.
    + intros (t & E & ->). injection E as <-. reflexivity.
  - split; [discriminate|]. intros (t & E & _). discriminate.
Qed.
Lemma write_footnotes_ok : forall l s s', all (map (write_footnote U o checks) l) s = Ok s' ->
  exists texts, Forall2 (fun f t => footnote_text U o checks f = Ok t) l texts
  /\ output s' = output s ++ List.concat texts
  /\ trace s' = trace s ++ map Footnote l
  /\ cx s' = cx s /\ pending_references s' = pending_references s
  /\ emitted_references s' = emitted_references s
  /\ f_pending (footnotes s') = f_pending (footnotes s)
  /\ f_reference_lines (footnotes s') = f_reference_lines (footnotes s)
  /\ f_collecting (footnotes s') = f_collecting (footnotes s)
  /\ f_current_line (footnotes s') = f_current_line (footnotes s)
  /\ f_pending_references (footnotes s') = f_pending_references (footnotes s)
  /\ skip s' = skip s /\ warnings s' = warnings s /\ proper_nouns s' = proper_nouns s
  /\ common_nouns s' = common_nouns s /\ calls s' = calls s
  /\ forall k, In k (f_emitted (footnotes s')) <-> In k (f_emitted (footnotes s)) \/ In k (map fn_name l).
Proof.
  induction l as [|f l IH]; intros s s' H.
  - injection H as <-. exists []. cbn [map List.concat]. rewrite !app_nil_r.
    repeat split; auto. intros [I|[]]; exact I.
  - cbn [map] in H. rewrite all_cons in H. apply seqa_ok in H. destruct H as (m & Hm & H).
    apply write_footnote_ok in Hm. destruct Hm as (text & T & ->). apply IH in H. clear IH.
    destruct H as (texts & F & H1 & H2 & H3 & H4 & H5 & H6 & H7 & H8 & H9 & H10 & H11 & H12 & H13 & H14 & H15 & H16).
    exists (text :: texts). split; [constructor; assumption|].
    rewrite H1, H2, H3, H4, H5, H6, H7, H8, H9, H10, H11, H12, H13, H14, H15.
    unfold written_footnote. cbn [output trace cx pending_references emitted_references footnotes skip warnings
      proper_nouns common_nouns calls set_output set_trace set_footnotes f_pending f_emitted f_reference_lines
      f_collecting f_current_line f_pending_references List.concat map].
    rewrite <- !app_assoc. cbn [app]. repeat split; auto.
    + intro I. apply H16 in I. unfold written_footnote in I.
      cbn [footnotes set_footnotes set_output set_trace f_emitted] in I.
      unfold set_insert in I. destruct (mem (fn_name f) (f_emitted (footnotes s))); cbn [In] in *; tauto.
    + intro I. apply H16. unfold written_footnote. cbn [footnotes set_footnotes set_output set_trace f_emitted].
      unfold set_insert. destruct (mem (fn_name f) (f_emitted (footnotes s))) eqn:M; cbn [In] in *; [|tauto].
      apply mem_true in M. destruct I as [I|[<-|I]]; auto.
Qed.

Definition live_footnotes (s : st) : list (str * footnote) :=
  filter (fun kv => negb (mem (fst kv) (f_emitted (footnotes s)))) (f_pending (footnotes s)).
Definition due_footnotes (before : option nat) (s : st) : list footnote :=
  map snd (filter (fun kv => due before (fn_reference_line (snd kv))) (live_footnotes s)).
Definition kept_footnotes (before : option nat) (s : st) : list (str * footnote) :=
  filter (fun kv => negb (due before (fn_reference_line (snd kv)))) (live_footnotes s).
Definition footnote_order (l : list footnote) : list footnote :=
  flush_order (fun x => extract_numeric_footnote_name (fn_name x)) l.
Lemma flush_footnotes_ok : forall before s s', flush_footnotes_before U o checks before s = Ok s' ->
  exists texts, Forall2 (fun f t => footnote_text U o checks f = Ok t) (footnote_order (due_footnotes before s)) texts
  /\ output s' = output s ++ section_text (output s) (List.concat texts) (is_nil (due_footnotes before s))
  /\ trace s' = trace s ++ map Footnote (footnote_order (due_footnotes before s))
  /\ cx s' = cx s /\ pending_references s' = pending_references s
  /\ emitted_references s' = emitted_references s
  /\ f_pending (footnotes s') = reinsert (kept_footnotes before s)
  /\ f_reference_lines (footnotes s') = f_reference_lines (footnotes s)
  /\ f_collecting (footnotes s') = f_collecting (footnotes s)
  /\ f_current_line (footnotes s') = f_current_line (footnotes s)
  /\ f_pending_references (footnotes s') = f_pending_references (footnotes s)
  /\ skip s' = skip s /\ warnings s' = warnings s /\ proper_nouns s' = proper_nouns s
  /\ common_nouns s' = common_nouns s /\ calls s' = calls s
  /\ forall k, In k (f_emitted (footnotes s')) <->
       In k (f_emitted (footnotes s)) \/ In k (map fn_name (footnote_order (due_footnotes before s))).
Proof.
  intros before s s' H. unfold flush_footnotes_before, get in H. destruct (f_pending (footnotes s)) as [|p ps] eqn:P.
  - cbn [is_nil] in H. injection H as <-. exists [].
    assert (L : live_footnotes s = []) by (unfold live_footnotes; rewrite P; reflexivity).
    unfold due_footnotes, kept_footnotes, section_text. rewrite L. cbn. rewrite !app_nil_r.
    repeat split; auto. intros [I|[]]; exact I.
  - cbn [is_nil] in H. rewrite <- P in H. fold (live_footnotes s) in H.
    fold (due_footnotes before s) in H. fold (kept_footnotes before s) in H.
    unfold upd in H. apply seqa_ok in H. destruct H as (m & Hm & H). injection Hm as <-.
    destruct (due_footnotes before s) as [|d ds] eqn:D.
    + cbn [is_nil] in H. injection H as <-. exists []. unfold section_text. cbn. rewrite !app_nil_r.
      repeat split; auto. intros [I|[]]; exact I.
    + cbn [is_nil] in H. apply seqa_ok in H. destruct H as (m & Hm & H). rewrite ensure_blank_line_eq in Hm.
      injection Hm as <-. fold (footnote_order (d :: ds)) in H. apply write_footnotes_ok in H.
      destruct H as (texts & F & H1 & H2 & H3 & H4 & H5 & H6 & H7 & H8 & H9 & H10 & H11 & H12 & H13 & H14 & H15 & H16).
      exists texts. split; [exact F|].
      rewrite H1, H2, H3, H4, H5, H6, H7, H8, H9, H10, H11, H12, H13, H14, H15.
      unfold section_text. cbn [is_nil].
      repeat split; try (intro I; apply H16 in I; exact I); try (intro I; apply H16; exact I).
      cbn [output set_output set_footnotes]. rewrite <- app_assoc. reflexivity.
Qed.
End Footnotes.

Definition live_footnote_references (s : st) : list (str * (reference * nat)) :=
  filter (fun kv => negb (mem (fst kv) (emitted_references s))) (f_pending_references (footnotes s)).
Definition due_footnote_references (before : option nat) (s : st) : list reference :=
  map (fun kv => fst (snd kv)) (filter (fun kv => due before (snd (snd kv))) (live_footnote_references s)).
Definition kept_footnote_references (before : option nat) (s : st) : list (str * (reference * nat)) :=
  filter (fun kv => negb (due before (snd (snd kv)))) (live_footnote_references s).
Lemma flush_footnote_references_eq : forall before s, exists s',
  flush_footnote_references_before before s = Ok s'
  /\ output s' = output s ++ section_text (output s) (flat_map reference_text (due_footnote_references before s))
                   (is_nil (due_footnote_references before s))
  /\ trace s' = trace s ++ map Def (due_footnote_references before s)
  /\ cx s' = cx s /\ pending_references s' = pending_references s
  /\ f_pending (footnotes s') = f_pending (footnotes s)
  /\ f_emitted (footnotes s') = f_emitted (footnotes s)
  /\ f_reference_lines (footnotes s') = f_reference_lines (footnotes s)
  /\ f_collecting (footnotes s') = f_collecting (footnotes s)
  /\ f_current_line (footnotes s') = f_current_line (footnotes s)
  /\ f_pending_references (footnotes s') = reinsert (kept_footnote_references before s)
  /\ skip s' = skip s /\ warnings s' = warnings s /\ proper_nouns s' = proper_nouns s
  /\ common_nouns s' = common_nouns s /\ calls s' = calls s
  /\ forall k, In k (emitted_references s') <->
       In k (emitted_references s) \/ In k (map ref_label (due_footnote_references before s)).
Proof.
  intros before s. unfold flush_footnote_references_before, get.
  destruct (f_pending_references (footnotes s)) as [|p ps] eqn:P.
  - exists s. assert (L : live_footnote_references s = []) by (unfold live_footnote_references; rewrite P; reflexivity).
    unfold due_footnote_references, kept_footnote_references, section_text. rewrite L. cbn. rewrite !app_nil_r.
    repeat split; auto. intros [I|[]]; exact I.
  - cbn [is_nil]. rewrite <- P. fold (live_footnote_references s).
    fold (due_footnote_references before s). fold (kept_footnote_references before s).
    unfold seqa at 1. unfold upd. cbn [rbind].
    destruct (due_footnote_references before s) as [|d ds] eqn:D.
    + cbn [is_nil]. eexists. split; [reflexivity|]. unfold section_text. cbn. rewrite !app_nil_r.
      repeat split; auto. intros [I|[]]; exact I.
    + cbn [is_nil]. unfold seqa. rewrite ensure_blank_line_eq. cbn [rbind]. rewrite write_references_eq.
      match goal with |- context[fold_left written_reference ?l ?x] => set (s1 := x) end.
      pose proof (fold_written (d :: ds) s1) as W. cbv zeta in W.
      destruct W as (H1 & H2 & H3 & H4 & H5 & H6 & H7 & H8 & H9 & H10 & H11).
      eexists. split; [reflexivity|].
      rewrite H1, H2, H3, H4, H5, H6, H7, H8, H9, H10. unfold section_text. cbn [is_nil].
      repeat split; try (intro I; apply H11 in I; exact I); try (intro I; apply H11; exact I).
      cbn [output s1 set_output set_footnotes]. rewrite <- app_assoc. reflexivity.
Qed.
