(** Proofs about punctuation.rs. *)
From Coq Require Import Bool Arith NArith Lia ZifyBool ZifyNat ZifyN String List.
From Verif Require Import Base BaseFacts OptsModel PunctModel.
Import ListNotations.

(** ** Ellipsis *)

(** What the code does to a maximal run of [n] periods. *)
Fixpoint dot_run_blocks (k : nat) : str :=
  match k with 0 => [] | S j => c_ellipsis :: c_dot :: dot_run_blocks j end.
Definition dot_run (n : nat) : str :=
  dot_run_blocks (n / 4) ++ (if n mod 4 =? 3 then [c_ellipsis] else repc c_dot (n mod 4)).

Definition no_dot_head (s : str) : Prop := forall r, s <> c_dot :: r.

Lemma te_nondot : forall c r, c <> c_dot -> transform_ellipsis (c :: r) = c :: transform_ellipsis r.
Proof. intros. cbn [transform_ellipsis]. destruct (ceq_spec c c_dot); [congruence|]. reflexivity. Qed.

Lemma te_dots_small : forall n b, n < 3 -> no_dot_head b ->
  transform_ellipsis (repc c_dot n ++ b) = repc c_dot n ++ transform_ellipsis b.
Proof.
  intros n b Hn Hb. destruct n as [|[|[|n]]]; [reflexivity| | |lia]; cbn [repc repeat app].
  - destruct b as [|c1 b]; [reflexivity|].
    assert (c1 <> c_dot) by (intro; subst; eapply Hb; eauto).
    cbn [transform_ellipsis]. rewrite ceq_refl. destruct b as [|c2 b]; [reflexivity|].
    destruct (ceq_spec c1 c_dot); [congruence|]. reflexivity.
  - destruct b as [|c1 b]; [reflexivity|].
    assert (c1 <> c_dot) by (intro; subst; eapply Hb; eauto).
    cbn [transform_ellipsis]. rewrite !ceq_refl. destruct (ceq_spec c1 c_dot); [congruence|].
    cbn [andb]. destruct b; reflexivity.
Qed.
Lemma te_dots3 : forall b, no_dot_head b ->
  transform_ellipsis (repc c_dot 3 ++ b) = c_ellipsis :: transform_ellipsis b.
Proof.
  intros b Hb. cbn [repc repeat app transform_ellipsis]. rewrite !ceq_refl. cbn [andb].
  destruct b as [|c1 b]; [reflexivity|].
  assert (c1 <> c_dot) by (intro; subst; eapply Hb; eauto).
  destruct (ceq_spec c1 c_dot); [congruence|]. reflexivity.
Qed.
Lemma te_dots4 : forall b,
  transform_ellipsis (repc c_dot 4 ++ b) = c_ellipsis :: c_dot :: transform_ellipsis b.
Proof. reflexivity. Qed.

Lemma te_dots : forall q r b, r < 4 -> no_dot_head b ->
  transform_ellipsis (repc c_dot (4 * q + r) ++ b) =
  dot_run_blocks q ++ (if r =? 3 then [c_ellipsis] else repc c_dot r) ++ transform_ellipsis b.
Proof.
  induction q; intros r b Hr Hb.
  - change (4 * 0 + r) with r. cbn [dot_run_blocks app]. destruct (Nat.eqb_spec r 3).
    + subst. apply te_dots3; auto.
    + apply te_dots_small; auto. lia.
  - replace (4 * S q + r) with (4 + (4 * q + r)) by lia. rewrite repc_app, <- app_assoc, te_dots4, IHq; auto.
Qed.
Lemma te_run : forall n b, no_dot_head b ->
  transform_ellipsis (repc c_dot n ++ b) = dot_run n ++ transform_ellipsis b.
Proof.
  intros n b Hb. unfold dot_run. rewrite <- app_assoc.
  pose proof (Nat.div_mod n 4 ltac:(lia)) as E.
  rewrite E at 1. apply te_dots; auto. apply Nat.mod_upper_bound. lia.
Qed.
Lemma te_plain : forall s b, Forall (fun c => c <> c_dot) s ->
  transform_ellipsis (s ++ b) = s ++ transform_ellipsis b.
Proof.
  intros s b H. induction H; auto. cbn [app]. rewrite te_nondot; auto. congruence.
Qed.

(** ** Quotes *)
Inductive quote_rel (dq sq : bool) : char -> char -> Prop :=
| qr_same : forall c, quote_rel dq sq c c
| qr_ldq : dq = true -> quote_rel dq sq c_dq c_ldq
| qr_rdq : dq = true -> quote_rel dq sq c_dq c_rdq
| qr_lsq : sq = true -> quote_rel dq sq c_sq c_lsq
| qr_rsq : sq = true -> quote_rel dq sq c_sq c_rsq.

Lemma Forall2_refl' : forall dq sq (s : str), Forall2 (quote_rel dq sq) s s.
Proof. induction s; constructor; auto. apply qr_same. Qed.

Lemma quote_rel_trans : forall dq sq a b c,
  quote_rel dq sq a b -> quote_rel dq sq b c -> quote_rel dq sq a c.
Proof.
  intros dq sq a b c H1 H2.
  inversion H1; subst; auto; inversion H2; subst; try discriminate; assumption.
Qed.
Lemma Forall2_quote_trans : forall dq sq a b, Forall2 (quote_rel dq sq) a b -> forall c,
  Forall2 (quote_rel dq sq) b c -> Forall2 (quote_rel dq sq) a c.
Proof.
  intros dq sq a b H. induction H; intros c0 H2; inversion H2; subst; constructor; auto.
  eapply quote_rel_trans; eauto.
Qed.

Lemma double_quotes_rel : forall sq text prev e,
  Forall2 (quote_rel true sq) text (transform_double_quotes_from prev e text).
Proof.
  induction text as [|c r IH]; intros; cbn [transform_double_quotes_from]; [constructor|].
  destruct (ceq_spec c c_dq).
  - subst. destruct (should_be_opening_quote prev (hd_opt r) e); constructor; auto; constructor; reflexivity.
  - constructor; auto. apply qr_same.
Qed.
Lemma double_quotes_gone : forall text prev e, ~ In c_dq (transform_double_quotes_from prev e text).
Proof.
  induction text as [|c r IH]; intros prev e; cbn [transform_double_quotes_from]; auto.
  destruct (ceq_spec c c_dq).
  - destruct (should_be_opening_quote prev (hd_opt r) e); intros [H|H]; try discriminate; eapply IH; eauto.
  - intros [H|H]; [congruence|]. eapply IH; eauto.
Qed.
Lemma double_quotes_id : forall text prev e, ~ In c_dq text -> transform_double_quotes_from prev e text = text.
Proof.
  induction text as [|c r IH]; intros prev e H; cbn [transform_double_quotes_from]; auto.
  destruct (ceq_spec c c_dq); [subst; exfalso; apply H; left; auto|].
  f_equal. apply IH. intro; apply H; right; auto.
Qed.

Section U.
Variable U : Uni.

Lemma single_step_out : forall prev rest e,
  fst (single_quote_step U prev rest e) = c_sq
  \/ fst (single_quote_step U prev rest e) = c_lsq
  \/ fst (single_quote_step U prev rest e) = c_rsq.
Proof.
  intros. unfold single_quote_step.
  repeat match goal with |- context[if ?b then _ else _] => destruct b end; cbn [fst]; auto.
Qed.
Lemma single_quotes_rel : forall dq text prev e,
  Forall2 (quote_rel dq true) text (transform_single_quotes_from U prev e text).
Proof.
  induction text as [|c r IH]; intros; cbn [transform_single_quotes_from]; [constructor|].
  destruct (ceq_spec c c_sq).
  - subst. constructor; auto.
    destruct (single_step_out prev r e) as [E|[E|E]]; rewrite E; constructor; reflexivity.
  - constructor; auto. apply qr_same.
Qed.

Lemma apostrophe_step_out : forall prev rest n,
  fst (apostrophe_step U prev rest n) = c_sq \/ fst (apostrophe_step U prev rest n) = c_rsq.
Proof.
  intros. unfold apostrophe_step.
  repeat match goal with |- context[if ?b then _ else _] => destruct b end; cbn [fst]; auto.
Qed.
Lemma apostrophes_rel : forall dq text prev n,
  Forall2 (quote_rel dq true) text (transform_apostrophes_from U prev n text).
Proof.
  induction text as [|c r IH]; intros; cbn [transform_apostrophes_from]; [constructor|].
  destruct (ceq_spec c c_sq).
  - subst. constructor; auto.
    destruct (apostrophe_step_out prev r n) as [E|E]; rewrite E; constructor; reflexivity.
  - constructor; auto. apply qr_same.
Qed.

(** The three quote passes with their switches. *)
Definition quote_passes (dq sq ap : bool) (t : str) : str :=
  let r4 := if dq then transform_double_quotes t else t in
  let r5 := if sq then transform_single_quotes U r4 else r4 in
  if ap then transform_apostrophes U r5 else r5.

Lemma quote_rel_weaken : forall dq sq dq' sq' a b, (dq = true -> dq' = true) -> (sq = true -> sq' = true) ->
  quote_rel dq sq a b -> quote_rel dq' sq' a b.
Proof. intros dq sq dq' sq' a b H1 H2 H. inversion H; subst; constructor; auto. Qed.
Lemma Forall2_weaken : forall dq sq dq' sq' a b, (dq = true -> dq' = true) -> (sq = true -> sq' = true) ->
  Forall2 (quote_rel dq sq) a b -> Forall2 (quote_rel dq' sq') a b.
Proof. intros. induction H1; constructor; auto. eapply quote_rel_weaken; eauto. Qed.

Lemma quote_passes_rel : forall dq sq ap t,
  Forall2 (quote_rel dq (sq || ap)) t (quote_passes dq sq ap t).
Proof.
  intros. unfold quote_passes.
  set (r4 := if dq then transform_double_quotes t else t).
  assert (H4 : Forall2 (quote_rel dq (sq || ap)) t r4).
  { unfold r4. destruct dq; [apply double_quotes_rel|apply Forall2_refl']. }
  set (r5 := if sq then transform_single_quotes U r4 else r4).
  assert (H5 : Forall2 (quote_rel dq (sq || ap)) t r5).
  { unfold r5. destruct sq; auto. eapply Forall2_quote_trans; eauto. apply single_quotes_rel. }
  destruct ap; auto. eapply Forall2_quote_trans; eauto. rewrite orb_true_r. apply apostrophes_rel.
Qed.

(** *** Idempotence.  Laws of the character classes that are needed: the
    quote characters are neither letters nor digits. *)
Definition quote_chars : list char := [c_sq; c_lsq; c_rsq; c_dq; c_ldq; c_rdq].
Definition quotes_not_letters : Prop :=
  forall c, In c quote_chars -> u_alpha U c = false /\ u_alnum U c = false.
Hypothesis laws : quotes_not_letters.

(** Two texts that agree except that single quotes may differ in shape. *)
Inductive sq_rel : char -> char -> Prop :=
| sr_same : forall c, sq_rel c c
| sr_l : sq_rel c_sq c_lsq
| sr_r : sq_rel c_sq c_rsq.
Definition osq_rel (a b : option char) : Prop :=
  match a, b with Some x, Some y => sq_rel x y | None, None => True | _, _ => False end.

Lemma hd_opt_rel : forall a b, Forall2 sq_rel a b -> osq_rel (hd_opt a) (hd_opt b).
Proof. intros a b H. destruct H; simpl; auto. Qed.
Lemma hd2_opt_rel : forall a b, Forall2 sq_rel a b -> osq_rel (hd2_opt a) (hd2_opt b).
Proof. intros a b H. destruct H; simpl; auto. destruct H0; simpl; auto. Qed.

Lemma osq_none : forall a b, osq_rel a b -> opt_none a = opt_none b.
Proof. intros [x|] [y|] H; simpl in *; tauto. Qed.
Lemma opt_is_rel : forall p a b, p c_lsq = p c_sq -> p c_rsq = p c_sq ->
  osq_rel a b -> opt_is p a = opt_is p b.
Proof.
  intros p [x|] [y|] H1 H2 H; simpl in *; try tauto. inversion H; subst; auto.
Qed.
Lemma alpha_quote : forall c, In c quote_chars -> u_alpha U c = false.
Proof. intros c H. apply laws; auto. Qed.
Lemma alnum_quote : forall c, In c quote_chars -> u_alnum U c = false.
Proof. intros c H. apply laws; auto. Qed.
Ltac qc := unfold quote_chars; cbn [In]; tauto.

Lemma possessive_end_rel : forall a b, osq_rel a b -> possessive_end U a = possessive_end U b.
Proof.
  intros a b H. unfold possessive_end. rewrite (osq_none _ _ H). f_equal.
  apply opt_is_rel; auto; rewrite !alpha_quote by qc; reflexivity.
Qed.

(** Apostrophe decisions are invariant under the relation. *)
Lemma apostrophe_step_rel : forall p p' r r' n, osq_rel p p' -> Forall2 sq_rel r r' ->
  apostrophe_step U p r n = apostrophe_step U p' r' n.
Proof.
  intros p p' r r' n Hp Hr. pose proof (hd_opt_rel _ _ Hr) as H1. pose proof (hd2_opt_rel _ _ Hr) as H2.
  unfold apostrophe_step.
  rewrite (possessive_end_rel _ _ H2), (osq_none _ _ Hp), (osq_none _ _ H1).
  rewrite (opt_is_rel (fun c => ceq c c_rbr || ceq c c_rpar || ceq c c_rcur) _ _ (eq_refl _) (eq_refl _) Hp).
  assert (A : u_alnum U c_lsq = u_alnum U c_sq) by (rewrite !alnum_quote by qc; reflexivity).
  assert (B : u_alnum U c_rsq = u_alnum U c_sq) by (rewrite !alnum_quote by qc; reflexivity).
  rewrite (opt_is_rel _ _ _ A B Hp), (opt_is_rel _ _ _ A B H1).
  rewrite (opt_is_rel is_s _ _ (eq_refl _) (eq_refl _) H1).
  rewrite (opt_is_rel is_ws _ _ (eq_refl _) (eq_refl _) H1).
  rewrite (opt_is_rel is_ws _ _ (eq_refl _) (eq_refl _) Hp).
  reflexivity.
Qed.

Lemma apostrophes_sq_rel : forall text prev n,
  Forall2 sq_rel text (transform_apostrophes_from U prev n text).
Proof.
  induction text as [|c r IH]; intros; cbn [transform_apostrophes_from]; [constructor|].
  destruct (ceq_spec c c_sq).
  - subst. constructor; auto. destruct (apostrophe_step_out prev r n) as [E|E]; rewrite E; constructor.
  - constructor; auto. constructor.
Qed.
Lemma single_quotes_sq_rel : forall text prev n,
  Forall2 sq_rel text (transform_single_quotes_from U prev n text).
Proof.
  induction text as [|c r IH]; intros; cbn [transform_single_quotes_from]; [constructor|].
  destruct (ceq_spec c c_sq).
  - subst. constructor; auto. destruct (single_step_out prev r n) as [E|[E|E]]; rewrite E; constructor.
  - constructor; auto. constructor.
Qed.

Lemma apostrophe_count : forall p r n, fst (apostrophe_step U p r n) = c_rsq -> snd (apostrophe_step U p r n) = n.
Proof.
  intros p r n. unfold apostrophe_step.
  repeat match goal with |- context[if ?b then _ else _] => destruct b end; cbn [fst snd]; auto; discriminate.
Qed.

Lemma apostrophes_idem_from : forall text p p' n, osq_rel p p' ->
  transform_apostrophes_from U p' n (transform_apostrophes_from U p n text)
  = transform_apostrophes_from U p n text.
Proof.
  induction text as [|c r IH]; intros p p' n Hp; cbn [transform_apostrophes_from]; auto.
  destruct (ceq_spec c c_sq).
  - subst. set (d := apostrophe_step U p r n) in *. cbn [transform_apostrophes_from].
    destruct (apostrophe_step_out p r n) as [E|E].
    + fold d in E. rewrite E. rewrite ceq_refl.
      rewrite <- (apostrophe_step_rel p p' r _ n Hp (apostrophes_sq_rel r (Some c_sq) (snd d))).
      fold d. rewrite E. f_equal. apply IH. constructor.
    + fold d in E. rewrite E. change (ceq c_rsq c_sq) with false. cbv iota. f_equal.
      pose proof (apostrophe_count p r n E) as Hn. fold d in Hn. rewrite Hn. apply IH. constructor.
  - cbn [transform_apostrophes_from]. destruct (ceq_spec c c_sq); [congruence|]. f_equal. apply IH. constructor.
Qed.
Lemma apostrophes_idem : forall t, transform_apostrophes U (transform_apostrophes U t) = transform_apostrophes U t.
Proof. intro t. apply apostrophes_idem_from. exact I. Qed.

(** Single quotes: a straight quote that survives one pass survives every
    later pass, provided no letter is followed by two straight quotes. *)
Fixpoint letter_two_quotes (t : str) : bool :=
  match t with
  | a :: ((b :: c :: _) as r) => (u_alpha U a && ceq b c_sq && ceq c c_sq) || letter_two_quotes r
  | _ => false
  end.

Lemma single_step_kept : forall prev rest e, fst (single_quote_step U prev rest e) = c_sq ->
  forall prev' rest', osq_rel prev prev' -> Forall2 sq_rel rest rest' ->
  (opt_is (u_alpha U) prev = true -> hd_opt rest = Some c_sq -> False) ->
  single_quote_step U prev' rest' true = (c_sq, true).
Proof.
  intros prev rest e H prev' rest' Hp Hr Hno.
  pose proof (hd_opt_rel _ _ Hr) as H1. pose proof (hd2_opt_rel _ _ Hr) as H2.
  unfold single_quote_step in *.
  rewrite <- (possessive_end_rel _ _ H2), <- (osq_none _ _ Hp), <- (osq_none _ _ H1).
  assert (A : u_alpha U c_lsq = u_alpha U c_sq) by (rewrite !alpha_quote by qc; reflexivity).
  assert (B : u_alpha U c_rsq = u_alpha U c_sq) by (rewrite !alpha_quote by qc; reflexivity).
  rewrite <- (opt_is_rel _ _ _ A B Hp), <- (opt_is_rel _ _ _ A B H1).
  rewrite <- (opt_is_rel is_s _ _ (eq_refl _) (eq_refl _) H1).
  rewrite <- (opt_is_rel is_ws _ _ (eq_refl _) (eq_refl _) Hp).
  rewrite <- (opt_is_rel is_ascii_digit _ _ (eq_refl _) (eq_refl _) Hp).
  rewrite <- (opt_is_rel is_ascii_digit _ _ (eq_refl _) (eq_refl _) H1).
  rewrite <- (opt_is_rel (fun c => ceq c c_rbr || ceq c c_rpar || ceq c c_rcur) _ _ (eq_refl _) (eq_refl _) Hp).
  destruct (opt_is (u_alpha U) prev) eqn:Ea.
  - assert (Ep : opt_is (fun c => is_ws c || is_ascii_punct c) (hd_opt rest)
               = opt_is (fun c => is_ws c || is_ascii_punct c) (hd_opt rest')).
    { destruct (hd_opt rest) as [x|], (hd_opt rest') as [y|]; simpl in H1; try tauto.
      inversion H1; subst; auto; exfalso; apply Hno; auto. }
    rewrite <- Ep. clear Ep.
    repeat match goal with
    | H : context[if ?b then _ else _] |- _ => destruct b eqn:?; cbn [fst] in H; try discriminate H
    end;
    repeat match goal with
    | |- context[if ?b then _ else _] => destruct b eqn:?
    end; try reflexivity; exfalso;
    repeat match goal with
    | H : _ && _ = true |- _ => apply andb_true_iff in H; destruct H
    | H : true && _ = false |- _ => cbn [andb] in H
    | H : true && true && _ = false |- _ => cbn [andb] in H
    end; try congruence;
    repeat match goal with
    | H1 : ?a = true, H2 : context[?a] |- _ => rewrite H1 in H2; cbn [andb orb] in H2
    end; try congruence.
  - cbn [andb] in *. rewrite andb_false_r in H. cbn [andb] in H.
    repeat match goal with
    | H : context[if ?b then _ else _] |- _ => destruct b eqn:?; cbn [fst] in H; try discriminate H
    end; reflexivity.
Qed.

Definition ltq_from (prev : option char) (t : str) : bool :=
  letter_two_quotes (match prev with Some p => p :: t | None => t end).

Lemma ltq_tail : forall prev c r, ltq_from prev (c :: r) = false -> ltq_from (Some c) r = false.
Proof.
  intros prev c r H. unfold ltq_from in *. destruct prev as [p|]; auto.
  cbn [letter_two_quotes] in H. destruct r; auto. apply orb_false_iff in H. apply H.
Qed.

Lemma sq_rel1_trans : forall a b c, sq_rel a b -> sq_rel b c -> sq_rel a c.
Proof. intros a b c H1 H2. inversion H1; subst; auto; inversion H2; subst; constructor. Qed.
Lemma sq_rel_trans : forall a b, Forall2 sq_rel a b -> forall c, Forall2 sq_rel b c -> Forall2 sq_rel a c.
Proof.
  intros a b H. induction H; intros c0 Hc; inversion Hc; subst; constructor; auto.
  eapply sq_rel1_trans; eauto.
Qed.

(** [t] is what the passes after the single-quote pass may have made of it:
    straight quotes may have become right quotes. *)
Lemma single_quotes_stable : forall text prev e t prev',
  ltq_from prev text = false ->
  Forall2 sq_rel (transform_single_quotes_from U prev e text) t ->
  osq_rel prev prev' ->
  transform_single_quotes_from U prev' true t = t.
Proof.
  induction text as [|c r IH]; intros prev e t prev' Hno Ht Hp; cbn [transform_single_quotes_from] in Ht.
  - inversion Ht; subst. reflexivity.
  - destruct (ceq_spec c c_sq).
    + subst. set (d := single_quote_step U prev r e) in *. inversion Ht as [|x y l l' Hxy Hl]; subst.
      cbn [transform_single_quotes_from]. destruct (ceq_spec y c_sq).
      * subst y. assert (Ed : fst d = c_sq).
        { destruct (single_step_out prev r e) as [E|[E|E]]; fold d in E; auto;
          rewrite E in Hxy; inversion Hxy. }
        assert (Hrel : Forall2 sq_rel r l').
        { eapply sq_rel_trans; [|exact Hl]. apply single_quotes_sq_rel. }
        rewrite (single_step_kept prev r e Ed prev' l' Hp Hrel).
        -- cbn [fst snd]. f_equal. eapply IH; eauto. { eapply ltq_tail; eauto. } constructor.
        -- intros Ha Hh. destruct prev as [p|]; [|discriminate]. destruct r as [|x r]; [discriminate|].
           cbn in Hh. injection Hh as ->. unfold ltq_from in Hno. cbn [letter_two_quotes] in Hno.
           cbn in Ha. rewrite Ha, !ceq_refl in Hno. discriminate.
      * f_equal. eapply IH; eauto. { eapply ltq_tail; eauto. }
        cbn. assert (Hx : sq_rel c_sq y).
        { destruct (single_step_out prev r e) as [E|[E|E]]; fold d in E; rewrite E in Hxy; inversion Hxy; subst; constructor. }
        exact Hx.
    + inversion Ht as [|x y l l' Hxy Hl]; subst. cbn [transform_single_quotes_from].
      assert (y = c) by (inversion Hxy; subst; congruence). subst y.
      destruct (ceq_spec c c_sq); [congruence|]. f_equal. eapply IH; eauto. { eapply ltq_tail; eauto. }
Qed.

Lemma ltq_double : forall t prev e, ltq_from prev t = false ->
  ltq_from prev (transform_double_quotes_from prev e t) = false.
Proof.
  (* generalised over the previous character being a converted double quote *)
  assert (G : forall t p0 p1 prev e, (u_alpha U p1 = true -> p0 = p1) ->
     letter_two_quotes (p0 :: t) = false ->
     letter_two_quotes (p1 :: transform_double_quotes_from prev e t) = false).
  { induction t as [|c r IH]; intros p0 p1 prev e Hp H; auto.
    cbn [transform_double_quotes_from].
    assert (Ht : letter_two_quotes (c :: r) = false).
    { cbn [letter_two_quotes] in H. destruct r; auto. apply orb_false_iff in H. apply H. }
    destruct (ceq_spec c c_dq).
    - subst c. destruct (should_be_opening_quote prev (hd_opt r) e).
      + assert (letter_two_quotes (c_ldq :: transform_double_quotes_from (Some c_dq) false r) = false).
        { apply (IH c_dq); auto. rewrite alpha_quote by qc. discriminate. }
        cbn [letter_two_quotes]. destruct (transform_double_quotes_from (Some c_dq) false r); auto.
        apply orb_false_iff. split; auto. rewrite andb_false_r. reflexivity.
      + assert (letter_two_quotes (c_rdq :: transform_double_quotes_from (Some c_dq) true r) = false).
        { apply (IH c_dq); auto. rewrite alpha_quote by qc. discriminate. }
        cbn [letter_two_quotes]. destruct (transform_double_quotes_from (Some c_dq) true r); auto.
        apply orb_false_iff. split; auto. rewrite andb_false_r. reflexivity.
    - assert (A : letter_two_quotes (c :: transform_double_quotes_from (Some c) e r) = false).
      { apply (IH c); auto. }
      cbn [letter_two_quotes]. destruct (transform_double_quotes_from (Some c) e r) as [|x l] eqn:E; auto.
      apply orb_false_iff. split; auto.
      destruct (u_alpha U p1) eqn:Ea; auto. rewrite (Hp eq_refl) in H. cbn [letter_two_quotes] in H.
      destruct r as [|y r]; [discriminate|]. apply orb_false_iff in H. destruct H as [H _].
      rewrite Ea in H. cbn [andb] in *. destruct (ceq_spec c c_sq); auto. cbn [andb] in *.
      destruct (ceq_spec x c_sq); auto. subst. cbn [transform_double_quotes_from] in E.
      destruct (ceq_spec y c_dq).
      + destruct (should_be_opening_quote (Some c_sq) (hd_opt r) e); discriminate.
      + inversion E; subst. rewrite ceq_refl in H. discriminate. }
  intros t prev e H. unfold ltq_from in *. destruct prev as [p|].
  - eapply G; eauto.
  - destruct t as [|c r]; auto. cbn [transform_double_quotes_from]. destruct (ceq_spec c c_dq).
    + subst. destruct (should_be_opening_quote None (hd_opt r) e); (apply (G r c_dq); [rewrite alpha_quote by qc; discriminate|exact H]).
    + eapply G; eauto.
Qed.

Lemma no_dq_rel : forall a b, Forall2 sq_rel a b -> ~ In c_dq a -> ~ In c_dq b.
Proof.
  intros a b H. induction H; auto. intros Hn [E|E].
  - subst. inversion H; subst. apply Hn. left; auto.
  - apply IHForall2; auto. intro; apply Hn; right; auto.
Qed.
Lemma sq_rel_refl : forall t, Forall2 sq_rel t t.
Proof. induction t; constructor; auto. constructor. Qed.
Lemma quote_passes_idem : forall dq sq ap t,
  letter_two_quotes t = false ->
  quote_passes dq sq ap (quote_passes dq sq ap t) = quote_passes dq sq ap t.
Proof.
  intros dq sq ap t Hno. unfold quote_passes at 2 3.
  set (r4 := if dq then transform_double_quotes t else t).
  set (r5 := if sq then transform_single_quotes U r4 else r4).
  set (r6 := if ap then transform_apostrophes U r5 else r5).
  assert (H4 : letter_two_quotes r4 = false).
  { unfold r4. destruct dq; auto. apply (ltq_double t None true). exact Hno. }
  assert (R56 : Forall2 sq_rel r5 r6).
  { unfold r6. destruct ap; [apply apostrophes_sq_rel|apply sq_rel_refl]. }
  assert (R45 : Forall2 sq_rel r4 r5).
  { unfold r5. destruct sq; [apply single_quotes_sq_rel|apply sq_rel_refl]. }
  unfold quote_passes.
  assert (E4 : (if dq then transform_double_quotes r6 else r6) = r6).
  { destruct dq; auto. apply double_quotes_id. eapply no_dq_rel; [eapply sq_rel_trans; eauto|].
    apply double_quotes_gone. }
  rewrite E4.
  assert (E5 : (if sq then transform_single_quotes U r6 else r6) = r6).
  { destruct sq; auto. unfold transform_single_quotes.
    eapply (single_quotes_stable r4 None true); eauto. exact I. }
  rewrite E5. unfold r6. destruct ap; auto. apply apostrophes_idem.
Qed.
End U.

(** ** Dashes *)

(** [occurs p s]: [p] occurs in [s]. *)
Definition occurs (p s : str) : Prop := exists a b, s = a ++ p ++ b.

Lemma strip_prefix_len : forall p s r, strip_prefix p s = Some r -> List.length s = List.length p + List.length r.
Proof. intros p s r H. apply strip_prefix_some in H. subst. apply app_length. Qed.

Lemma td_nil : forall k prev p rep, transform_dashes_from k prev p rep [] = [].
Proof. destruct k; reflexivity. Qed.

(** Prefix law: with a multi-character pattern, an occurrence of the pattern
    at the start of the output means one at the start of the input. *)
Lemma td_prefix : forall k prev p rep text q r,
  List.length text <= k -> p <> [] -> Forall (fun c => c <> rep) q ->
  transform_dashes_from k prev p rep text = q ++ r -> exists r', text = q ++ r' .
Proof.
  induction k as [|k IH]; intros prev p rep text q r Hk Hp Hq H.
  - cbn in H. eauto.
  - destruct q as [|x q]; [exists text; reflexivity|].
    inversion Hq; subst. destruct text as [|c rest]; [discriminate|].
    cbn [transform_dashes_from] in H. cbn [List.length] in Hk.
    destruct (strip_prefix p (c :: rest)) as [after|] eqn:E.
    + destruct (List.length p =? 1).
      * destruct ((opt_none prev || opt_is is_ws prev) && (opt_none (hd_opt after) || opt_is is_ws (hd_opt after))).
        -- cbn [app] in H. inversion H; subst. congruence.
        -- cbn [app] in H. injection H as -> H. apply IH in H; auto; [|lia].
           destruct H as [r' ->]. exists r'. reflexivity.
      * cbn [app] in H. inversion H; subst. congruence.
    + cbn [app] in H. injection H as -> H. apply IH in H; auto; [|lia].
      destruct H as [r' ->]. exists r'. reflexivity.
Qed.

Lemma td_complete : forall k prev p rep text,
  List.length text <= k -> List.length p <> 1 -> p <> [] -> Forall (fun c => c <> rep) p ->
  ~ occurs p (transform_dashes_from k prev p rep text).
Proof.
  induction k as [|k IH]; intros prev p rep text Hk H1 Hp Hq [a [b H]].
  - destruct text; [|cbn in Hk; lia]. cbn in H. destruct a; [destruct p; [congruence|discriminate]|discriminate].
  - destruct text as [|c rest].
    + cbn in H. destruct a; [destruct p; [congruence|discriminate]|discriminate].
    + cbn [transform_dashes_from] in H. cbn [List.length] in Hk.
      destruct (strip_prefix p (c :: rest)) as [after|] eqn:E.
      * replace (List.length p =? 1) with false in H by (symmetry; apply Nat.eqb_neq; auto).
        destruct a as [|x a].
        -- destruct p as [|x p]; [congruence|]. cbn [app] in H. injection H as H _.
           inversion Hq; subst. congruence.
        -- cbn [app] in H. injection H as _ H. pose proof (strip_prefix_len _ _ _ E) as L. cbn [List.length] in L.
           refine (IH _ p rep after _ H1 Hp Hq (ex_intro _ a (ex_intro _ b H))). destruct p; [congruence|]. cbn [List.length] in L. lia.
      * destruct a as [|x a].
        -- cbn [app] in H. assert (E2 : exists r', c :: rest = p ++ r').
           { apply (td_prefix (S k) prev p rep (c :: rest) p b); [cbn [List.length]; lia|exact Hp|exact Hq|].
             cbn [transform_dashes_from]. rewrite E. exact H. }
           destruct E2 as [r' E2]. apply strip_prefix_some in E2. congruence.
        -- cbn [app] in H. injection H as _ H. refine (IH _ p rep rest _ H1 Hp Hq (ex_intro _ a (ex_intro _ b H))). lia.
Qed.

Lemma td_id : forall k prev p rep text, ~ occurs p text -> transform_dashes_from k prev p rep text = text.
Proof.
  induction k as [|k IH]; intros prev p rep text H; auto. destruct text as [|c rest]; auto.
  cbn [transform_dashes_from]. destruct (strip_prefix p (c :: rest)) as [after|] eqn:E.
  - exfalso. apply H. apply strip_prefix_some in E. exists [], after. exact E.
  - f_equal. apply IH. intros [a [b E2]]. apply H. exists (c :: a), b. rewrite E2. reflexivity.
Qed.

Lemma graphic_not : forall p c, Forall (fun x => is_ascii_graphic x = true) p -> (126 < c)%N -> Forall (fun x => x <> c) p.
Proof.
  intros p c H Hc. eapply Forall_impl; [|exact H]. intros x Hx E. subst.
  unfold is_ascii_graphic in Hx. lia.
Qed.

(** Single-character patterns: position by position. *)
Inductive dash1_rel (p rep : char) : option char -> str -> str -> Prop :=
| d1_nil : forall prev, dash1_rel p rep prev [] []
| d1_keep : forall prev c r r',
    ~ (c = p /\ (prev = None \/ exists x, prev = Some x /\ is_ws x = true)
              /\ (r = [] \/ exists y r2, r = y :: r2 /\ is_ws y = true)) ->
    dash1_rel p rep (Some c) r r' -> dash1_rel p rep prev (c :: r) (c :: r')
| d1_conv : forall prev r r',
    (prev = None \/ exists x, prev = Some x /\ is_ws x = true) ->
    (r = [] \/ exists y r2, r = y :: r2 /\ is_ws y = true) ->
    dash1_rel p rep (Some p) r r' -> dash1_rel p rep prev (p :: r) (rep :: r').

Lemma opt_ws_iff : forall o, opt_none o || opt_is is_ws o = true <-> (o = None \/ exists x, o = Some x /\ is_ws x = true).
Proof.
  intros [x|]; cbn; split; auto.
  - intro H. right. eauto.
  - intros [H|[y [H1 H2]]]; [discriminate|]. inversion H1; subst; auto.
Qed.
Lemma hd_ws_iff : forall r, opt_none (hd_opt r) || opt_is is_ws (hd_opt r) = true
   <-> (r = [] \/ exists y r2, r = y :: r2 /\ is_ws y = true).
Proof.
  intros [|x r]; cbn; split; auto.
  - intro H. right. eauto.
  - intros [H|[y [r2 [H1 H2]]]]; [discriminate|]. inversion H1; subst; auto.
Qed.

Lemma td_single : forall p rep text k prev, List.length text <= k ->
  dash1_rel p rep prev text (transform_dashes_from k prev [p] rep text).
Proof.
  induction text as [|c rest IH]; intros k prev Hk; [rewrite td_nil; constructor|].
  destruct k as [|k]; [cbn in Hk; lia|]. cbn [List.length] in Hk. cbn [transform_dashes_from strip_prefix].
  destruct (ceq_spec p c).
  - subst. cbn [List.length Nat.eqb].
    destruct ((opt_none prev || opt_is is_ws prev) && (opt_none (hd_opt rest) || opt_is is_ws (hd_opt rest))) eqn:E.
    + apply andb_true_iff in E. destruct E as [E1 E2]. apply opt_ws_iff in E1. apply hd_ws_iff in E2.
      constructor; auto. apply IH; lia.
    + apply d1_keep; [|apply IH; lia]. intros [_ [H1 H2]]. apply opt_ws_iff in H1. apply hd_ws_iff in H2.
      rewrite H1, H2 in E. discriminate.
  - apply d1_keep; [|apply IH; lia]. intros [H _]. congruence.
Qed.

Lemma dash1_functional : forall p rep prev t a, dash1_rel p rep prev t a -> forall b,
  dash1_rel p rep prev t b -> a = b.
Proof.
  intros p rep prev t a H. induction H; intros b Hb; inversion Hb; subst; auto.
  - f_equal; auto.
  - exfalso. apply H. auto.
  - exfalso. match goal with X : ~ _ |- _ => apply X; auto end.
  - f_equal; auto.
Qed.

(** Same text up to exchanging non-whitespace characters. *)
Lemma td_single_idem_rel : forall p rep, is_ws p = false -> is_ws rep = false -> rep <> p ->
  forall prev t a, dash1_rel p rep prev t a -> forall prev',
  match prev, prev' with None, None => True | Some x, Some y => is_ws x = is_ws y | _, _ => False end ->
  dash1_rel p rep prev' a a.
Proof.
  intros p rep Hp Hrep Hne prev t a H. induction H; intros prev' Hpp.
  - constructor.
  - apply d1_keep; [|apply IHdash1_rel; reflexivity].
    intros [E [H1 H2]]. subst c. apply H. split; [reflexivity|]. split.
    + destruct prev as [x|], prev' as [y|]; try tauto.
      destruct H1 as [H1|[z [H1 H3]]]; [discriminate|]. inversion H1; subst. right. exists x. split; auto; congruence.
    + inversion H0; subst; auto.
      * destruct H2 as [H2|[y [r2 [H2 W3]]]]; [discriminate|]. inversion H2; subst. right. eauto.
      * destruct H2 as [H2|[y [r2 [H2 W3]]]]; [discriminate|]. inversion H2; subst. congruence.
  - apply d1_keep; [|apply IHdash1_rel; congruence]. intros [E _]. congruence.
Qed.
Lemma td_single_idem : forall p rep t, is_ws p = false -> is_ws rep = false -> rep <> p ->
  transform_dashes (transform_dashes t [p] rep) [p] rep = transform_dashes t [p] rep.
Proof.
  intros p rep t H1 H2 H3. unfold transform_dashes. cbn [is_nil].
  eapply dash1_functional; [apply td_single; lia|].
  eapply td_single_idem_rel; eauto; [apply td_single; lia|exact I].
Qed.

(** Converting is reversible: putting the pattern back for every dash gives
    the original text. *)
Definition put_back (p : str) (rep : char) (s : str) : str :=
  flat_map (fun c => if ceq c rep then p else [c]) s.
Lemma put_back_id : forall p rep s, ~ In rep s -> put_back p rep s = s.
Proof.
  induction s as [|c s IH]; intro H; auto. cbn [put_back flat_map].
  destruct (ceq_spec c rep); [exfalso; apply H; left; auto|]. cbn [app]. f_equal. apply IH. intro; apply H; right; auto.
Qed.
Lemma td_put_back : forall k prev p rep text, ~ In rep text ->
  put_back p rep (transform_dashes_from k prev p rep text) = text.
Proof.
  induction k as [|k IH]; intros prev p rep text H; [apply put_back_id; auto|].
  destruct text as [|c rest]; auto. cbn [transform_dashes_from].
  assert (Hk : forall q, put_back p rep (c :: transform_dashes_from k q p rep rest) = c :: rest).
  { intro q. cbn [put_back flat_map]. destruct (ceq_spec c rep); [exfalso; apply H; left; auto|].
    cbn [app]. f_equal. apply IH. intro; apply H; right; auto. }
  destruct (strip_prefix p (c :: rest)) as [after|] eqn:E.
  - apply strip_prefix_some in E.
    assert (Ha : ~ In rep after) by (intro Hin; apply H; rewrite E; apply in_or_app; auto).
    assert (Hr : forall q, put_back p rep (rep :: transform_dashes_from k q p rep after) = c :: rest).
    { intro q. cbn [put_back flat_map]. rewrite ceq_refl. rewrite E. f_equal. apply IH. exact Ha. }
    destruct (List.length p =? 1); auto.
    destruct ((opt_none prev || opt_is is_ws prev) && (opt_none (hd_opt after) || opt_is is_ws (hd_opt after))); auto.
  - apply Hk.
Qed.

Lemma td_whole : forall p rep, p <> [] -> transform_dashes p p rep = [rep].
Proof.
  intros p rep H. unfold transform_dashes. destruct p as [|c r]; [congruence|]. cbn [is_nil].
  cbn [List.length transform_dashes_from].
  replace (strip_prefix (c :: r) (c :: r)) with (Some (@nil char)).
  - destruct r; cbn [List.length Nat.eqb hd_opt opt_none opt_is orb andb]; rewrite td_nil; reflexivity.
  - symmetry. apply strip_prefix_some. rewrite app_nil_r. reflexivity.
Qed.

Lemma td_multi_complete : forall t p rep, 2 <= List.length p -> Forall (fun c => c <> rep) p ->
  ~ occurs p (transform_dashes t p rep).
Proof.
  intros t p rep H Hq. unfold transform_dashes. destruct p as [|c r] eqn:E; [cbn in H; lia|]. cbn [is_nil].
  rewrite <- E in *. apply td_complete; auto; try lia. congruence.
Qed.
Lemma td_no_occurs : forall t p rep, ~ occurs p t -> transform_dashes t p rep = t.
Proof. intros. unfold transform_dashes. destruct (is_nil p); auto. apply td_id; auto. Qed.

Lemma occurs_trans : forall a b c, occurs a b -> occurs b c -> occurs a c.
Proof.
  intros a b c [x [y ->]] [u [v ->]]. exists (u ++ x), (y ++ v). rewrite <- !app_assoc. reflexivity.
Qed.

(** A single printable character never converts inside a longer pattern. *)
Lemma dash1_graphic : forall p rep t prev,
  Forall (fun x => is_ascii_graphic x = true) t ->
  (2 <= List.length t \/ exists x, prev = Some x /\ is_ascii_graphic x = true) ->
  dash1_rel p rep prev t t.
Proof.
  assert (G : forall x, is_ascii_graphic x = true -> is_ws x = false).
  { intros x H. unfold is_ascii_graphic, is_ws in *. lia. }
  induction t as [|c r IH]; intros prev H Hl; [constructor|].
  inversion H as [|c0 r0 Hc Hr]; subst. apply d1_keep.
  - intros [_ [K1 K2]]. destruct Hl as [Hl|[x [-> Hx]]].
    + destruct r as [|d r]; [cbn in Hl; lia|]. inversion Hr; subst.
      destruct K2 as [K2|[y [r2 [K2 W]]]]; [discriminate|]. inversion K2; subst. rewrite G in W; congruence.
    + destruct K1 as [K1|[y [K1 W]]]; [discriminate|]. inversion K1; subst. rewrite G in W; congruence.
  - apply IH; auto. right. eauto.
Qed.

Lemma occurs_dec : forall p s, contains_sub p s = true <-> occurs p s.
Proof.
  intros p s. unfold contains_sub. induction s as [|c s IH]; cbn [find_sub].
  - destruct (starts_with p []) eqn:E.
    + split; auto. intros _. apply starts_with_true in E. destruct E as [r E]. exists [], r. exact E.
    + split; [discriminate|]. intros [a [b H]]. destruct a; [|discriminate].
      assert (starts_with p [] = true) by (apply starts_with_true; exists b; exact H). congruence.
  - destruct (starts_with p (c :: s)) eqn:E.
    + split; auto. intros _. apply starts_with_true in E. destruct E as [r E]. exists [], r. exact E.
    + destruct (find_sub p s) eqn:F.
      * split; auto. intros _. destruct IH as [IH _]. destruct (IH eq_refl) as [a [b ->]]. exists (c :: a), b. reflexivity.
      * split; [discriminate|]. intros [a [b H]]. destruct a as [|x a].
        -- assert (starts_with p (c :: s) = true) by (apply starts_with_true; exists b; exact H). congruence.
        -- cbn in H. inversion H; subst. destruct IH as [_ IH]. discriminate IH. exists a, b. reflexivity.
Qed.

Definition valid_pattern (p : str) : Prop := p <> [] /\ Forall (fun x => is_ascii_graphic x = true) p.

Definition dash_passes (em en t : str) : str :=
  transform_dashes (transform_dashes t em c_emdash) en c_endash.

Lemma en_unreachable : forall em en t, valid_pattern em -> 2 <= List.length em -> occurs em en ->
  dash_passes em en t = transform_dashes t em c_emdash.
Proof.
  intros em en t [V1 V2] H2 H3. unfold dash_passes. apply td_no_occurs. intro H.
  eapply td_multi_complete; [exact H2| |eapply occurs_trans; eauto]. apply graphic_not; auto. reflexivity.
Qed.
Lemma en_reachable : forall em en, valid_pattern em -> valid_pattern en -> em <> en ->
  ~ (2 <= List.length em /\ occurs em en) -> dash_passes em en en = [c_endash].
Proof.
  intros em en [V1 V2] [W1 W2] Hne Hno. unfold dash_passes.
  replace (transform_dashes en em c_emdash) with en; [apply td_whole; auto|].
  destruct em as [|c [|d em]]; [congruence| |].
  - unfold transform_dashes. cbn [is_nil]. eapply dash1_functional; [|apply td_single; lia].
    destruct en as [|e [|f en]]; [congruence| |].
    + apply d1_keep; [|constructor]. intros [E _]. congruence.
    + apply dash1_graphic; auto. left. cbn. lia.
  - symmetry. apply td_no_occurs. intro H. apply Hno. split; auto. cbn. lia.
Qed.
Lemma em_reachable : forall em en, valid_pattern em -> valid_pattern en ->
  dash_passes em en em = [c_emdash].
Proof.
  intros em en [V1 V2] [W1 W2]. unfold dash_passes. rewrite td_whole; auto.
  apply td_no_occurs. intros [a [b H]].
  destruct en as [|c r]; [congruence|]. inversion W2; subst.
  destruct a as [|x a].
  - cbn in H. inversion H; subst. discriminate.
  - cbn in H. inversion H. destruct a; discriminate.
Qed.

(** ** Ellipsis, documented behaviour *)
Inductive run_ellipsis (f : nat -> str) : str -> str -> Prop :=
| re_nil : run_ellipsis f [] []
| re_char : forall c r r', c <> c_dot -> run_ellipsis f r r' -> run_ellipsis f (c :: r) (c :: r')
| re_run : forall n r r', 0 < n -> (forall x, r <> c_dot :: x) -> run_ellipsis f r r' ->
    run_ellipsis f (repc c_dot n ++ r) (f n ++ r').

Lemma split_dots : forall s, exists n r, s = repc c_dot n ++ r /\ no_dot_head r.
Proof.
  induction s as [|c s IH]; [exists 0, []; split; [reflexivity|intros x H; discriminate]|].
  destruct (ceq_spec c c_dot).
  - subst. destruct IH as [n [r [-> H]]]. exists (S n), r. split; auto.
  - exists 0, (c :: s). split; auto. intros x H. congruence.
Qed.
Lemma te_exact : forall m s, List.length s <= m -> run_ellipsis dot_run s (transform_ellipsis s).
Proof.
  induction m as [|m IH]; intros s Hm; [destruct s; [constructor|cbn in Hm; lia]|].
  destruct s as [|c s]; [constructor|]. destruct (ceq_spec c c_dot).
  - subst. destruct (split_dots s) as [n [r [-> Hr]]]. change (c_dot :: repc c_dot n ++ r) with (repc c_dot (S n) ++ r).
    rewrite te_run; auto. constructor; auto; [lia|]. apply IH. cbn [List.length] in Hm.
    rewrite app_length, repc_length in Hm. lia.
  - rewrite te_nondot; auto. constructor; auto. apply IH. cbn in Hm. lia.
Qed.

Definition doc_run (n : nat) : str := if n =? 3 then [c_ellipsis] else repc c_dot n.

Lemma run_ellipsis_ext : forall f g s t, run_ellipsis f s t ->
  (forall n, occurs (repc c_dot n) s -> f n = g n) -> run_ellipsis g s t.
Proof.
  intros f g s t H. induction H; intro E.
  - constructor.
  - constructor; auto. apply IHrun_ellipsis. intros n [a [b Hn]]. apply E. exists (c :: a), b. rewrite Hn. reflexivity.
  - rewrite (E n).
    + constructor; auto. apply IHrun_ellipsis. intros k [a [b Hk]]. apply E. exists (repc c_dot n ++ a), b.
      rewrite Hk, <- app_assoc. reflexivity.
    + exists [], r. reflexivity.
Qed.
Lemma no_four : forall s n, ~ occurs (repc c_dot 4) s -> occurs (repc c_dot n) s -> n < 4.
Proof.
  intros s n H [a [b E]]. destruct (Nat.lt_ge_cases n 4); auto. exfalso. apply H.
  exists a, (repc c_dot (n - 4) ++ b). rewrite E. replace n with (4 + (n - 4)) at 1 by lia.
  rewrite repc_app, <- !app_assoc. reflexivity.
Qed.
Lemma run_ellipsis_head : forall f s t, run_ellipsis f s t -> (forall x, s <> c_dot :: x) -> (forall x, t <> c_dot :: x).
Proof.
  intros f s t H Hs x E. destruct H.
  - discriminate.
  - inversion E. congruence.
  - destruct n; [lia|]. eapply Hs. reflexivity.
Qed.
Lemma doc_idem : forall s t, run_ellipsis doc_run s t -> ~ occurs (repc c_dot 4) s -> transform_ellipsis t = t.
Proof.
  intros s t H. induction H; intro Hno.
  - reflexivity.
  - rewrite te_nondot; auto. f_equal. apply IHrun_ellipsis. intros [a [b E]]. apply Hno. exists (c :: a), b. rewrite E. reflexivity.
  - assert (Hr : transform_ellipsis r' = r').
    { apply IHrun_ellipsis. intros [a [b E]]. apply Hno. exists (repc c_dot n ++ a), b. rewrite E, <- app_assoc. reflexivity. }
    assert (Hn : n < 4) by (eapply no_four; [exact Hno|]; exists [], r; reflexivity).
    unfold doc_run. destruct (Nat.eqb_spec n 3).
    + change ([c_ellipsis] ++ r') with (c_ellipsis :: r'). rewrite te_nondot by discriminate. congruence.
    + rewrite te_dots_small; [congruence|lia|]. exact (run_ellipsis_head _ _ _ H1 H0).
Qed.
Lemma dot_run_doc : forall n, n < 4 -> dot_run n = doc_run n.
Proof. intros n H. destruct n as [|[|[|[|n]]]]; try reflexivity. lia. Qed.
Lemma te_doc : forall s, ~ occurs (repc c_dot 4) s ->
  run_ellipsis doc_run s (transform_ellipsis s) /\ transform_ellipsis (transform_ellipsis s) = transform_ellipsis s.
Proof.
  intros s H. assert (A : run_ellipsis doc_run s (transform_ellipsis s)).
  { eapply run_ellipsis_ext; [eapply te_exact; reflexivity|]. intros n Hn. apply dot_run_doc. eapply no_four; eauto. }
  split; auto. eapply doc_idem; eauto.
Qed.
