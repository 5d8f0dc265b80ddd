(** Lemmas about the string functions of [Base]. *)
From Coq Require Import Bool Arith NArith Ascii String Lia ZifyBool ZifyNat ZifyN List.
From Verif Require Import Base.
Import ListNotations.

Lemma ceq_true : forall a b, ceq a b = true <-> a = b.
Proof. intros; unfold ceq; apply N.eqb_eq. Qed.
Lemma ceq_false : forall a b, ceq a b = false <-> a <> b.
Proof. intros; unfold ceq; apply N.eqb_neq. Qed.
Lemma ceq_refl : forall a, ceq a a = true.
Proof. intros; apply ceq_true; reflexivity. Qed.
Lemma ceq_spec : forall a b, reflect (a = b) (ceq a b).
Proof. intros; unfold ceq; apply N.eqb_spec. Qed.

Lemma seqb_true : forall a b, seqb a b = true <-> a = b.
Proof.
  induction a as [|x a IH]; destruct b as [|y b]; simpl; split; intro H; try congruence.
  - apply andb_true_iff in H; destruct H as [H1 H2].
    apply ceq_true in H1. apply IH in H2. congruence.
  - inversion H; subst. rewrite ceq_refl. simpl. apply IH. reflexivity.
Qed.
Lemma seqb_refl : forall a, seqb a a = true.
Proof. intros; apply seqb_true; reflexivity. Qed.
Lemma seqb_false : forall a b, seqb a b = false <-> a <> b.
Proof.
  intros. destruct (seqb a b) eqn:E.
  - apply seqb_true in E. split; congruence.
  - split; auto. intros _ H. subst. rewrite seqb_refl in E. congruence.
Qed.

Lemma is_nil_true : forall A (l : list A), is_nil l = true <-> l = [].
Proof. destruct l; simpl; split; congruence. Qed.
Lemma is_nil_false : forall A (l : list A), is_nil l = false <-> l <> [].
Proof. destruct l; simpl; split; congruence. Qed.

Lemma strip_prefix_some : forall p s r, strip_prefix p s = Some r <-> s = p ++ r.
Proof.
  induction p as [|a p IH]; simpl; intros s r.
  - split; congruence.
  - destruct s as [|b s]; simpl.
    + split; [congruence|discriminate].
    + destruct (ceq_spec a b).
      * subst. rewrite IH. split; congruence.
      * split; congruence.
Qed.
Lemma starts_with_true : forall p s, starts_with p s = true <-> exists r, s = p ++ r.
Proof.
  intros. unfold starts_with. destruct (strip_prefix p s) eqn:E.
  - apply strip_prefix_some in E. split; eauto.
  - split; [discriminate|]. intros [r H]. apply strip_prefix_some in H. congruence.
Qed.
Lemma strip_suffix_some : forall p s r, strip_suffix p s = Some r <-> s = r ++ p.
Proof.
  intros. unfold strip_suffix. destruct (strip_prefix (rev p) (rev s)) eqn:E.
  - apply strip_prefix_some in E. split; intro H.
    + injection H as H; subst r. rewrite <- (rev_involutive s), E, rev_app_distr, rev_involutive. reflexivity.
    + subst s. rewrite rev_app_distr in E. apply app_inv_head in E. rewrite <- E.
      rewrite rev_involutive. reflexivity.
  - split; [discriminate|]. intro H. subst s. rewrite rev_app_distr in E.
    assert (strip_prefix (rev p) (rev p ++ rev r) = Some (rev r)) by (apply strip_prefix_some; reflexivity).
    congruence.
Qed.
Lemma ends_with_true : forall p s, ends_with p s = true <-> exists r, s = r ++ p.
Proof.
  intros. unfold ends_with. destruct (strip_suffix p s) eqn:E.
  - apply strip_suffix_some in E. split; eauto.
  - split; [discriminate|]. intros [r H]. apply strip_suffix_some in H. congruence.
Qed.

Lemma drop_while_app_take : forall p s, take_while p s ++ drop_while p s = s.
Proof. induction s as [|c s IH]; simpl; auto. destruct (p c); simpl; congruence. Qed.
Lemma take_while_forall : forall p s, Forall (fun c => p c = true) (take_while p s).
Proof. induction s as [|c s IH]; simpl; auto. destruct (p c) eqn:E; auto. Qed.
Lemma drop_while_head : forall p s c r, drop_while p s = c :: r -> p c = false.
Proof.
  induction s as [|d s IH]; simpl; intros c r H; [discriminate|].
  destruct (p d) eqn:E; eauto. congruence.
Qed.
Lemma drop_while_none : forall p s, Forall (fun c => p c = false) s -> drop_while p s = s.
Proof. intros p s H. destruct H; simpl; auto. rewrite H. reflexivity. Qed.
Lemma drop_while_all : forall p s, Forall (fun c => p c = true) s -> drop_while p s = [].
Proof. intros p s H. induction H; simpl; auto. rewrite H. assumption. Qed.
Lemma drop_while_app_all : forall p a b, Forall (fun c => p c = true) a -> drop_while p (a ++ b) = drop_while p b.
Proof. intros p a b H. induction H; simpl; auto. rewrite H. assumption. Qed.
Lemma drop_while_end_app : forall p s, exists t, s = drop_while_end p s ++ t /\ Forall (fun c => p c = true) t.
Proof.
  intros p s. unfold drop_while_end. exists (rev (take_while p (rev s))). split.
  - rewrite <- rev_app_distr, drop_while_app_take, rev_involutive. reflexivity.
  - apply Forall_rev. apply take_while_forall.
Qed.
Lemma trim_end_app : forall s, exists t, s = trim_end s ++ t /\ Forall (fun c => is_ws c = true) t.
Proof. intros. apply drop_while_end_app. Qed.
Lemma trim_start_app : forall s, exists t, s = t ++ trim_start s /\ Forall (fun c => is_ws c = true) t.
Proof.
  intros. exists (take_while is_ws s). split.
  - symmetry. apply drop_while_app_take.
  - apply take_while_forall.
Qed.
Lemma trim_app : forall s, exists a b, s = a ++ trim s ++ b
  /\ Forall (fun c => is_ws c = true) a /\ Forall (fun c => is_ws c = true) b.
Proof.
  intros s. destruct (trim_start_app s) as [a [Ha Fa]].
  destruct (trim_end_app (trim_start s)) as [b [Hb Fb]].
  exists a, b. repeat split; auto. unfold trim. rewrite <- Hb. exact Ha.
Qed.
Lemma trim_end_snoc_ws : forall s c, is_ws c = true -> trim_end (s ++ [c]) = trim_end s.
Proof.
  intros s c H. unfold trim_end, drop_while_end. rewrite rev_app_distr. simpl. rewrite H. reflexivity.
Qed.
Lemma trim_end_app_ws : forall s t, Forall (fun c => is_ws c = true) t -> trim_end (s ++ t) = trim_end s.
Proof.
  intros s t H. unfold trim_end, drop_while_end. rewrite rev_app_distr.
  rewrite drop_while_app_all; auto. apply Forall_rev; auto.
Qed.
Lemma trim_end_snoc_id : forall s c, is_ws c = false -> trim_end (s ++ [c]) = s ++ [c].
Proof.
  intros s c H. unfold trim_end, drop_while_end. rewrite rev_app_distr. simpl. rewrite H.
  simpl. rewrite rev_involutive. reflexivity.
Qed.
Lemma trim_end_idem : forall s, trim_end (trim_end s) = trim_end s.
Proof.
  intros s. destruct (trim_end_app s) as [t [Ht Ft]].
  rewrite Ht at 2. rewrite trim_end_app_ws; auto.
Qed.
Lemma trim_end_last : forall s, trim_end s = [] \/ exists a c, trim_end s = a ++ [c] /\ is_ws c = false.
Proof.
  intros s. unfold trim_end, drop_while_end. destruct (drop_while is_ws (rev s)) as [|c l] eqn:E.
  - left. reflexivity.
  - right. exists (rev l), c. split; [reflexivity|]. eapply drop_while_head; eauto.
Qed.

Lemma byte_len_app : forall a b, byte_len (a ++ b) = byte_len a + byte_len b.
Proof. induction a as [|c a IH]; simpl; intros; auto. rewrite IH. lia. Qed.
Lemma utf8_len_pos : forall c, 1 <= utf8_len c.
Proof. intro c. unfold utf8_len. repeat match goal with |- context[if ?b then _ else _] => destruct b end; lia. Qed.
Lemma length_le_byte_len : forall s, List.length s <= byte_len s.
Proof. induction s as [|c s IH]; simpl; auto. pose proof (utf8_len_pos c). lia. Qed.

Lemma split_on_nonempty : forall c s, split_on c s <> [].
Proof. induction s as [|x s IH]; simpl; [discriminate|]. destruct (ceq x c); [discriminate|]. destruct (split_on c s); discriminate. Qed.

Lemma join_cons : forall sep x y l, join sep (x :: y :: l) = x ++ sep ++ join sep (y :: l).
Proof. reflexivity. Qed.

Lemma join_split_on : forall c s, join [c] (split_on c s) = s.
Proof.
  induction s as [|x s IH]; auto. cbn [split_on].
  destruct (ceq_spec x c).
  - subst. destruct (split_on c s) eqn:E; [destruct (split_on_nonempty c s E)|].
    rewrite join_cons. cbn [app]. f_equal. exact IH.
  - destruct (split_on c s) as [|p ps] eqn:E; [destruct (split_on_nonempty c s E)|].
    destruct ps as [|q qs].
    + cbn [join] in *. congruence.
    + rewrite join_cons in *. cbn [app] in *. congruence.
Qed.
Lemma split_on_forall : forall c s, Forall (fun p => Forall (fun x => x <> c) p) (split_on c s).
Proof.
  induction s as [|x s IH]; cbn [split_on]; [repeat constructor|].
  destruct (ceq_spec x c).
  - constructor; auto.
  - destruct (split_on c s); [repeat constructor; auto|].
    inversion IH; subst. constructor; auto.
Qed.
Lemma split_on_no : forall c s, Forall (fun x => x <> c) s -> split_on c s = [s].
Proof.
  intros c s H. induction H; auto. cbn [split_on].
  destruct (ceq_spec x c); [congruence|]. rewrite IHForall. reflexivity.
Qed.
Lemma split_on_app : forall c a b, Forall (fun x => x <> c) a -> split_on c (a ++ c :: b) = a :: split_on c b.
Proof.
  intros c a b H. induction H; cbn [app split_on].
  - rewrite ceq_refl. reflexivity.
  - destruct (ceq_spec x c); [congruence|]. rewrite IHForall. reflexivity.
Qed.
Lemma split_on_join : forall c l, l <> [] -> Forall (fun p => Forall (fun x => x <> c) p) l ->
  split_on c (join [c] l) = l.
Proof.
  intros c l Hne H. induction l as [|x l IH]; [congruence|].
  inversion H; subst. destruct l as [|y l].
  - cbn [join]. apply split_on_no; auto.
  - rewrite join_cons. change (x ++ [c] ++ join [c] (y :: l)) with (x ++ c :: join [c] (y :: l)). rewrite split_on_app; auto. f_equal. apply IH; auto. discriminate.
Qed.

Lemma repc_length : forall c n, List.length (repc c n) = n.
Proof. intros; apply repeat_length. Qed.
Lemma repc_forall : forall c n (P : char -> Prop), P c -> Forall P (repc c n).
Proof. intros. induction n; simpl; constructor; auto. Qed.
Lemma repc_app : forall c m n, repc c (m + n) = repc c m ++ repc c n.
Proof. intros; apply repeat_app. Qed.
Lemma repc_S_snoc : forall c n, repc c (S n) = repc c n ++ [c].
Proof. intros. unfold repc. replace (S n) with (n + 1) by lia. rewrite repeat_app. reflexivity. Qed.
Lemma byte_len_repc_ascii : forall c n, utf8_len c = 1 -> byte_len (repc c n) = n.
Proof. intros c n H. induction n; simpl; auto. rewrite H, IHn. reflexivity. Qed.
Lemma rev_repc : forall c n, rev (repc c n) = repc c n.
Proof.
  intros. induction n; simpl; auto. rewrite IHn. change [c] with (repc c 1). rewrite <- repc_app.
  replace (n + 1) with (S n) by lia. reflexivity.
Qed.
Lemma lines_aux_app_nl : forall s cur r,
  Forall (fun c => c <> c_nl) s -> lines_aux cur (s ++ c_nl :: r) = strip_cr (rev cur ++ s) :: lines_aux [] r.
Proof.
  induction s as [|c s IH]; intros cur r H.
  - cbn [app lines_aux]. rewrite ceq_refl. rewrite app_nil_r. reflexivity.
  - inversion H; subst. cbn [app lines_aux]. destruct (ceq_spec c c_nl); [congruence|].
    rewrite IH; auto. cbn [rev]. rewrite <- app_assoc. reflexivity.
Qed.
Lemma lines_app_nl : forall s r,
  Forall (fun c => c <> c_nl) s -> lines (s ++ c_nl :: r) = strip_cr s :: lines r.
Proof. intros. unfold lines. rewrite lines_aux_app_nl; auto. Qed.
Lemma lines_aux_forall : forall s cur, Forall (fun c => c <> c_nl) cur ->
  Forall (fun l => Forall (fun c => c <> c_nl) l) (lines_aux cur s).
Proof.
  induction s as [|x s IH]; intros cur H; cbn [lines_aux].
  - destruct (is_nil cur); repeat constructor. apply Forall_rev; auto.
  - destruct (ceq_spec x c_nl).
    + constructor; [|apply IH; constructor].
      unfold strip_cr. rewrite rev_involutive. destruct cur as [|c r].
      * simpl. constructor.
      * inversion H; subst. destruct (ceq c c_cr); [apply Forall_rev; auto|]. apply (Forall_rev H).
    + apply IH. constructor; auto.
Qed.
Lemma lines_forall : forall s, Forall (fun l => Forall (fun c => c <> c_nl) l) (lines s).
Proof. intros. apply lines_aux_forall. constructor. Qed.

Lemma forallb_Forall : forall (p : char -> bool) s, forallb p s = true <-> Forall (fun c => p c = true) s.
Proof. intros. rewrite forallb_forall, Forall_forall. reflexivity. Qed.
