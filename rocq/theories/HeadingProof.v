(** Proofs about sentence case: nothing but letter case and the shape of
    quotation marks changes, and placeholders never leak. *)
From Coq Require Import Bool Arith NArith Lia ZifyBool ZifyNat ZifyN List.
From Verif Require Import Base BaseFacts DecFacts OptsModel HeadingModel SpecHeading.
Import ListNotations.

Definition no_f (s : str) : Prop := ~ In c_fffd s.

Lemma no_f_app : forall a b, no_f (a ++ b) <-> no_f a /\ no_f b.
Proof. intros. unfold no_f. rewrite in_app_iff. tauto. Qed.
Lemma no_f_cons : forall c a, no_f (c :: a) <-> c <> c_fffd /\ no_f a.
Proof. intros. unfold no_f. cbn. intuition congruence. Qed.
Lemma no_f_nil : no_f [].
Proof. intros []. Qed.

Lemma contains_char_true : forall c s, contains_char c s = true <-> In c s.
Proof.
  intros c s. unfold contains_char. rewrite existsb_exists. split.
  - intros (x & H & E). apply ceq_true in E. subst. exact H.
  - intros H. exists c. split; [exact H|apply ceq_refl].
Qed.
Lemma contains_char_false : forall c s, contains_char c s = false <-> ~ In c s.
Proof.
  intros. rewrite <- contains_char_true. destruct (contains_char c s); intuition congruence.
Qed.

Lemma digits_no_f : forall s, is_digit_str s -> no_f s.
Proof.
  intros s H I. unfold is_digit_str in H. rewrite Forall_forall in H. apply H in I.
  vm_compute in I. discriminate.
Qed.

Definition has_nondigit (s : str) : Prop := exists c, In c s /\ is_ascii_digit c = false.

(** Texts with placeholders: literal text, placeholder, literal text, ... *)
Inductive tx :=
| Last (l : str)
| Seg (l : str) (k : nat) (t : tx).

Fixpoint enc (t : tx) : str :=
  match t with
  | Last l => l
  | Seg l k t' => l ++ placeholder k ++ enc t'
  end.

(** [last_ok l]: the last character of [l] is no digit. *)
Definition last_ok (l : str) : Prop := forall x d, l = x ++ [d] -> is_ascii_digit d = false.

Fixpoint wf (n : nat) (t : tx) : Prop :=
  match t with
  | Last l => no_f l
  | Seg l k t' => no_f l /\ last_ok l /\ k < n /\ wf n t'
  end.

Section Seen.
Variable see : char -> str.
Notation G := (flat_map see).

Fixpoint seen (reps : list str) (t : tx) : str :=
  match t with
  | Last l => G l
  | Seg l k t' => G l ++ G (nth k reps []) ++ seen reps t'
  end.

(** Changing stretches of literal text in place, each followed by an unchanged
    character that is neither a digit nor U+FFFD. *)
Inductive same : str -> str -> Prop :=
| same_end x y : no_f x -> no_f y -> G x = G y -> same x y
| same_keep c a b : same a b -> same (c :: a) (c :: b)
| same_sep x y c a b : no_f x -> no_f y -> G x = G y -> c <> c_fffd -> is_ascii_digit c = false ->
    same a b -> same (x ++ c :: a) (y ++ c :: b).

Lemma same_refl : forall s, same s s.
Proof. induction s; [apply same_end; auto; apply no_f_nil|apply same_keep; auto]. Qed.

Lemma same_app_sep : forall w p c a b, same w p -> same a b -> c <> c_fffd -> is_ascii_digit c = false ->
  same (w ++ c :: a) (p ++ c :: b).
Proof.
  intros w p c a b H Hab Hc Hd. induction H.
  - apply same_sep; auto.
  - cbn [app]. apply same_keep. auto.
  - rewrite <- !app_assoc. cbn [app]. apply same_sep; auto.
Qed.

Lemma same_inv : forall s b, same s b ->
  no_f s
  \/ (exists c a b', s = c :: a /\ b = c :: b' /\ same a b')
  \/ (exists x y c a b', s = x ++ c :: a /\ b = y ++ c :: b' /\ no_f x /\ c <> c_fffd
        /\ is_ascii_digit c = false).
Proof.
  intros s b H. inversion H; subst; [left; assumption|right; left|right; right].
  - do 3 eexists. split; [reflexivity|]. split; [reflexivity|]. assumption.
  - do 5 eexists. split; [reflexivity|]. split; [reflexivity|]. auto.
Qed.

(** Through a run of digits closed by U+FFFD nothing can change. *)
Lemma same_digits : forall ds r b, is_digit_str ds -> same (ds ++ c_fffd :: r) b ->
  exists b', b = ds ++ c_fffd :: b' /\ same r b'.
Proof.
  induction ds as [|d ds IH]; intros r b Hd H.
  - apply same_inv in H. destruct H as [H|[(c & a & b' & E1 & -> & S')|(x & y & c & a & b' & E1 & _ & N & C & D)]].
    + exfalso. apply H. left. reflexivity.
    + cbn [app] in E1. injection E1 as <- <-. exists b'. auto.
    + exfalso. destruct x as [|e x]; cbn [app] in E1; injection E1 as E2 E3; [congruence|].
      subst e. apply N. left. reflexivity.
  - inversion Hd as [|d' ds' D1 D2]; subst.
    apply same_inv in H. destruct H as [H|[(c & a & b' & E1 & -> & S')|(x & y & c & a & b' & P & _ & N & C & D)]].
    + exfalso. apply H. apply in_or_app. right. left. reflexivity.
    + cbn [app] in E1. injection E1 as <- <-. destruct (IH _ _ D2 S') as (b2 & -> & S2). exists b2. auto.
    + exfalso. apply app_eq_app in P. destruct P as (l & [[P1 P2]|[P1 P2]]).
      * destruct l as [|e l]; cbn [app] in P2; injection P2 as P3 P4; [congruence|]. subst e.
        assert (Dc : is_ascii_digit c = true).
        { rewrite P1 in Hd. unfold is_digit_str in Hd. rewrite Forall_app in Hd. destruct Hd as [_ Hd].
          inversion Hd; auto. }
        congruence.
      * destruct l as [|e l]; cbn [app] in P2; injection P2 as P3 P4; [congruence|]. subst e.
        apply N. rewrite P1. apply in_or_app. right. left. reflexivity.
Qed.

Lemma last_ok_cons : forall c l, l <> [] -> (last_ok (c :: l) <-> last_ok l).
Proof.
  intros c l Hl. split; intros H x d E.
  - apply (H (c :: x) d). rewrite E. reflexivity.
  - destruct x as [|e x]; cbn [app] in E; injection E as E1 E2; [congruence|]. eapply H; eauto.
Qed.

Lemma last_ok_app : forall a l, l <> [] -> (last_ok (a ++ l) <-> last_ok l).
Proof.
  induction a as [|c a IH]; intros l Hl; cbn [app]; [tauto|].
  rewrite last_ok_cons; [apply IH; auto|]. destruct a; cbn; [auto|discriminate].
Qed.

Lemma last_ok_suffix : forall a l, last_ok (a ++ l) -> last_ok l.
Proof.
  intros a l H x d E. apply (H (a ++ x) d). rewrite E, app_assoc. reflexivity.
Qed.

Lemma last_ok_nil : last_ok [].
Proof. intros [|? ?] d E; discriminate. Qed.

(** A literal stretch before a placeholder. *)
Lemma same_literal : forall s b, same s b -> forall l r, s = l ++ c_fffd :: r -> no_f l -> last_ok l ->
  exists l' b', b = l' ++ c_fffd :: b' /\ no_f l' /\ last_ok l' /\ G l' = G l /\ same r b' /\ (l = [] <-> l' = []).
Proof.
  intros s b H. induction H; intros l r E Hl Hok.
  - exfalso. apply H. rewrite E. apply in_or_app. right. left. reflexivity.
  - destruct l as [|e l]; cbn [app] in E; injection E as E1 E2; subst.
    + exists [], b. repeat split; auto; apply no_f_nil || apply last_ok_nil.
    + apply no_f_cons in Hl. destruct Hl as [He Hl].
      destruct (IHsame l r) as (l' & b' & -> & N & K & GG & S' & NN); auto.
      { eapply (last_ok_suffix [e]). exact Hok. }
      exists (e :: l'), b'. split; [reflexivity|]. split; [apply no_f_cons; auto|].
      split.
      { destruct l as [|e2 l].
        - destruct NN as [NN _]. rewrite NN by reflexivity. exact Hok.
        - destruct l' as [|e3 l']; [destruct NN as [_ NN]; discriminate (NN eq_refl)|].
          apply last_ok_cons; [discriminate|]. exact K. }
      cbn. rewrite GG. split; auto. split; auto. split; discriminate.
  - apply app_eq_app in E. destruct E as (z & [[P1 P2]|[P1 P2]]).
    + destruct z as [|e z]; cbn [app] in P2; injection P2 as P3 P4; [congruence|]. subst e.
      exfalso. apply H. rewrite P1. apply in_or_app. right. left. reflexivity.
    + destruct z as [|e z]; cbn [app] in P2; injection P2 as P3 P4; [congruence|]. subst e.
      rewrite P1 in Hl. apply no_f_app in Hl. destruct Hl as [Hx Hcz]. apply no_f_cons in Hcz.
      destruct Hcz as [_ Hz].
      assert (Hzok : last_ok z).
      { rewrite P1 in Hok. apply last_ok_suffix in Hok. apply (last_ok_suffix [c]). exact Hok. }
      destruct (IHsame z r P4 Hz Hzok) as (l' & b' & -> & N & K & GG & S' & NN).
      exists (y ++ c :: l'), b'. rewrite <- app_assoc. cbn [app]. split; [reflexivity|].
      split; [apply no_f_app; split; [auto|apply no_f_cons; auto]|].
      split.
      { apply last_ok_app; [discriminate|]. destruct z as [|e2 z].
        - destruct NN as [NN _]. rewrite NN by reflexivity. intros x' d E.
          destruct x' as [|? [|? ?]]; cbn in E; injection E; intros; subst; auto; discriminate.
        - destruct l' as [|e3 l']; [destruct NN as [_ NN]; discriminate (NN eq_refl)|].
          apply last_ok_cons; [discriminate|]. exact K. }
      rewrite P1, !flat_map_app. cbn. rewrite GG, H1. split; auto. split; auto.
      split; intros E; exfalso; [destruct x|destruct y]; discriminate.
Qed.

Lemma same_no_f : forall s b, same s b -> no_f s -> no_f b /\ G b = G s.
Proof.
  intros s b H. induction H; intros N.
  - auto.
  - apply no_f_cons in N. destruct N as [N1 N2]. destruct (IHsame N2) as [N3 N4]. cbn. rewrite N4.
    split; auto. apply no_f_cons; auto.
  - apply no_f_app in N. destruct N as [N1 N2]. apply no_f_cons in N2. destruct N2 as [N2 N3].
    destruct (IHsame N3) as [N4 N5]. rewrite !flat_map_app. cbn. rewrite N5, H1. split; auto.
    apply no_f_app. split; auto. apply no_f_cons; auto.
Qed.

Lemma same_tx : forall n reps t out, wf n t -> same (enc t) out ->
  exists t', out = enc t' /\ wf n t' /\ seen reps t' = seen reps t.
Proof.
  intros n reps t. induction t as [l|l k t IH]; intros out W H; cbn [enc wf seen] in *.
  - destruct (same_no_f _ _ H W) as [N E]. exists (Last out). auto.
  - destruct W as (N & K & Kn & W). unfold placeholder in H. cbn [app] in H.
    destruct (same_literal _ _ H l _ eq_refl N K) as (l' & b' & -> & N' & K' & GG & S' & _).
    rewrite <- app_assoc in S'. cbn [app] in S'.
    destruct (same_digits _ _ _ (dec_digits k) S') as (b2 & -> & S2).
    destruct (IH b2 W S2) as (t' & -> & W' & E').
    exists (Seg l' k t'). cbn [enc wf seen]. split.
    + unfold placeholder. cbn [app]. rewrite <- app_assoc. reflexivity.
    + split; auto. rewrite GG, E'. reflexivity.
Qed.

Lemma seen_snoc : forall n reps r t, wf n t -> n <= List.length reps ->
  seen (reps ++ [r]) t = seen reps t.
Proof.
  intros n reps r t. induction t as [l|l k t IH]; intros W L; cbn [seen wf] in *; auto.
  destruct W as (_ & _ & K & W). rewrite IH by auto. rewrite app_nth1 by lia. reflexivity.
Qed.

Lemma wf_mono : forall m n t, m <= n -> wf m t -> wf n t.
Proof.
  intros m n t L. induction t; cbn [wf]; auto. intros (A & B & C & D). repeat split; auto. lia.
Qed.

(** Putting a new placeholder over a piece of literal text. *)
Lemma cover : forall n reps r t A sub B, wf n t -> n <= List.length reps -> enc t = A ++ sub ++ B ->
  no_f sub -> has_nondigit sub -> last_ok A -> G r = G sub ->
  exists t', A ++ placeholder (List.length reps) ++ B = enc t' /\ wf (S (List.length reps)) t'
    /\ seen (reps ++ [r]) t' = seen reps t.
Proof.
  intros n reps r t. induction t as [l|l k t IH]; intros A sub B W L E Ns Hd Ha Hr; cbn [enc wf seen] in *.
  - exists (Seg A (List.length reps) (Last B)). cbn [enc wf seen]. split; [reflexivity|].
    rewrite E in W. apply no_f_app in W. destruct W as [W1 W2]. apply no_f_app in W2. destruct W2 as [W2 W3].
    split; [repeat split; auto|].
    rewrite app_nth2 by lia. rewrite Nat.sub_diag. cbn [nth]. rewrite E, !flat_map_app, Hr. reflexivity.
  - destruct W as (N & K & Kn & W).
    assert (Sn : sub <> []) by (destruct Hd as (c & I & _); intros ->; destruct I).
    assert (F0 : forall z, sub ++ B = c_fffd :: z -> False).
    { intros z Ez. destruct sub as [|e sub]; [congruence|]. cbn [app] in Ez. injection Ez as E1 E2.
      subst e. apply Ns. left. reflexivity. }
    assert (Fw : forall w z B', w <> [] -> w ++ z = c_fffd :: B' -> In c_fffd w).
    { intros w z B' Hw Ew. destruct w as [|e w]; [congruence|]. cbn [app] in Ew. injection Ew as E1 _.
      subst e. left. reflexivity. }
    unfold placeholder in E. cbn [app] in E. rewrite <- app_assoc in E. cbn [app] in E.
    apply app_eq_app in E. destruct E as (z & [[P1 P2]|[P1 P2]]).
    + (* l = A ++ z *)
      apply app_eq_app in P2. destruct P2 as (w & [[Q1 Q2]|[Q1 Q2]]).
      * symmetry in Q2. destruct w as [|e w].
        -- rewrite app_nil_r in Q1. cbn [app] in Q2.
           exists (Seg A (List.length reps) (Seg [] k t)). cbn [enc wf seen]. split.
           { rewrite Q2. unfold placeholder. cbn [app]. rewrite <- !app_assoc. cbn [app]. reflexivity. }
           subst z. rewrite P1 in N. apply no_f_app in N. destruct N as [N1 N2].
           split; [repeat split; auto; try lia; try apply no_f_nil; try apply last_ok_nil;
                   eapply wf_mono; [|eassumption]; lia|].
           rewrite app_nth2 by lia. rewrite Nat.sub_diag. cbn [nth]. rewrite app_nth1 by lia.
           rewrite (seen_snoc n) by auto. rewrite P1, !flat_map_app, Hr. cbn. rewrite <- app_assoc. reflexivity.
        -- exfalso. apply Ns. rewrite Q1. apply in_or_app. right. eapply Fw; [|exact Q2]. discriminate.
      * exists (Seg A (List.length reps) (Seg w k t)). cbn [enc wf seen]. split.
        { rewrite Q2. unfold placeholder. cbn [app]. rewrite <- !app_assoc. cbn [app].
          rewrite <- ?app_assoc. reflexivity. }
        rewrite P1, Q1 in N, K. apply no_f_app in N. destruct N as [N1 N2]. apply no_f_app in N2. destruct N2 as [N2 N3].
        split.
        { repeat split; auto; try lia.
          - apply last_ok_suffix in K. apply last_ok_suffix in K. exact K.
          - eapply wf_mono; [|eassumption]; lia. }
        rewrite app_nth2 by lia. rewrite Nat.sub_diag. cbn [nth]. rewrite app_nth1 by lia.
        rewrite (seen_snoc n) by auto. rewrite P1, Q1, !flat_map_app, Hr. rewrite <- !app_assoc. reflexivity.
    + (* A = l ++ z *)
      destruct z as [|e z]; cbn [app] in P2; [exfalso; eapply F0; symmetry; exact P2|].
      injection P2 as <- P2. apply app_eq_app in P2. destruct P2 as (w & [[Q1 Q2]|[Q1 Q2]]).
      * (* inside the digits *)
        exfalso. destruct w as [|e w]; cbn [app] in Q2; [eapply F0; exact Q2|].
        change (sub ++ B = (e :: w) ++ c_fffd :: enc t) in Q2.
        apply app_eq_app in Q2. destruct Q2 as (v & [[R1 R2]|[R1 R2]]).
        -- destruct v as [|f v].
           ++ rewrite app_nil_r in R1. destruct Hd as (c & I & D). pose proof (dec_digits k) as DD.
              rewrite Q1 in DD. unfold is_digit_str in DD. rewrite Forall_app in DD. destruct DD as [_ DD].
              rewrite Forall_forall in DD. rewrite (DD c) in D; [discriminate|]. rewrite <- R1. exact I.
           ++ apply Ns. rewrite R1. apply in_or_app. right. eapply Fw; [|symmetry; exact R2]. discriminate.
        -- destruct Hd as (c & I & D). pose proof (dec_digits k) as DD.
           rewrite Q1 in DD. unfold is_digit_str in DD. rewrite Forall_app in DD. destruct DD as [_ DD].
           rewrite Forall_forall in DD. rewrite (DD c) in D; [discriminate|]. rewrite R1. apply in_or_app. left. exact I.
      * destruct w as [|e w]; cbn [app] in Q2; [exfalso; eapply F0; symmetry; exact Q2|].
        injection Q2 as <- Q2.
        assert (Ha' : last_ok w).
        { rewrite P1, Q1 in Ha. apply last_ok_suffix in Ha. apply (last_ok_suffix [c_fffd]) in Ha.
          apply last_ok_suffix in Ha. apply (last_ok_suffix [c_fffd]) in Ha. exact Ha. }
        destruct (IH w sub B W L Q2 Ns Hd Ha' Hr) as (t' & E' & W' & S').
        exists (Seg l k t'). cbn [enc wf seen]. split.
        { rewrite <- E', P1, Q1. unfold placeholder. cbn [app]. rewrite <- !app_assoc. cbn [app].
          rewrite <- !app_assoc. cbn [app]. rewrite <- ?app_assoc. reflexivity. }
        split; [repeat split; auto; lia|]. rewrite S', app_nth1 by lia. reflexivity.
Qed.

(** Restoring. *)
Definition weak_ok (l : str) : Prop := l = [] \/ has_nondigit l.
Fixpoint weak (n : nat) (t : tx) : Prop :=
  match t with
  | Last l => no_f l
  | Seg l k t' => no_f l /\ weak_ok l /\ k < n /\ weak n t'
  end.

Lemma last_ok_weak : forall l, last_ok l -> weak_ok l.
Proof.
  intros l H. destruct (list_eq_dec N.eq_dec l []) as [->|Hl]; [left; reflexivity|]. right.
  destruct (exists_last Hl) as (x & d & ->). exists d. split; [apply in_or_app; right; left; reflexivity|].
  eapply H. reflexivity.
Qed.

Lemma wf_weak : forall n t, wf n t -> weak n t.
Proof.
  intros n t. induction t; cbn [wf weak]; auto. intros (A & B & C & D). repeat split; auto.
  apply last_ok_weak. exact B.
Qed.

(** Replacing placeholder [k] by [by_], joining the literals. *)
Definition glue (a : str) (t : tx) : tx :=
  match t with Last l => Last (a ++ l) | Seg l k t' => Seg (a ++ l) k t' end.
Fixpoint subst (k : nat) (by_ : str) (t : tx) : tx :=
  match t with
  | Last l => Last l
  | Seg l j t' => if j =? k then glue (l ++ by_) (subst k by_ t') else Seg l j (subst k by_ t')
  end.

Lemma enc_glue : forall a t, enc (glue a t) = a ++ enc t.
Proof. intros a [l|l k t]; cbn; rewrite ?app_assoc; reflexivity. Qed.

Lemma seen_glue : forall reps a t, seen reps (glue a t) = G a ++ seen reps t.
Proof. intros reps a [l|l k t]; cbn; rewrite flat_map_app, ?app_assoc; reflexivity. Qed.

Lemma weak_glue : forall n a t, no_f a -> has_nondigit a -> weak n t -> weak n (glue a t).
Proof.
  intros n a [l|l k t] Na Ha W; cbn in *.
  - apply no_f_app. auto.
  - destruct W as (A & B & C & D). split; [apply no_f_app; auto|]. split; auto.
    right. destruct Ha as (c & I & E). exists c. split; auto. apply in_or_app. auto.
Qed.

Lemma weak_subst : forall n k by_ t, no_f by_ -> has_nondigit by_ -> weak n t -> weak n (subst k by_ t).
Proof.
  intros n k by_ t Nb Hb. induction t as [l|l j t IH]; cbn [weak subst]; auto.
  intros (A & B & C & D). destruct (j =? k) eqn:E.
  - apply weak_glue; auto; [apply no_f_app; auto|]. destruct Hb as (c & I & E'). exists c. split; auto.
    apply in_or_app. auto.
  - cbn [weak]. auto.
Qed.

Lemma seen_subst : forall reps k t, seen reps (subst k (nth k reps []) t) = seen reps t.
Proof.
  intros reps k t. induction t as [l|l j t IH]; cbn [seen subst]; auto.
  destruct (j =? k) eqn:E.
  - apply Nat.eqb_eq in E. subst j. rewrite seen_glue, IH, flat_map_app, <- app_assoc. reflexivity.
  - cbn [seen]. rewrite IH. reflexivity.
Qed.

Fixpoint uses (k : nat) (t : tx) : Prop :=
  match t with Last _ => False | Seg _ j t' => j = k \/ uses k t' end.

Lemma uses_glue : forall k a t, uses k (glue a t) <-> uses k t.
Proof. intros k a [l|l j t]; cbn; tauto. Qed.

Lemma uses_subst : forall i k by_ t, uses i (subst k by_ t) -> i <> k /\ uses i t.
Proof.
  intros i k by_ t. induction t as [l|l j t IH]; cbn [uses subst]; [tauto|].
  destruct (j =? k) eqn:E.
  - intros H. apply uses_glue in H. apply IH in H. tauto.
  - apply Nat.eqb_neq in E. cbn [uses]. intros [->|H]; [auto|]. apply IH in H. tauto.
Qed.

(** [strip_prefix] of a placeholder on literal text and on placeholders. *)
Lemma strip_none_char : forall k c r, c <> c_fffd -> strip_prefix (placeholder k) (c :: r) = None.
Proof.
  intros k c r H. unfold placeholder. cbn [strip_prefix].
  destruct (ceq_spec c_fffd c) as [E|E]; [congruence|reflexivity].
Qed.

Lemma strip_digits_other : forall a b r, is_digit_str a -> is_digit_str b -> a <> b ->
  strip_prefix (a ++ [c_fffd]) (b ++ c_fffd :: r) = None.
Proof.
  induction a as [|x a IH]; intros [|y b] r Ha Hb Hab; cbn [app strip_prefix].
  - congruence.
  - inversion Hb; subst. destruct (ceq_spec c_fffd y) as [E|E]; [subst y; vm_compute in H1; discriminate|reflexivity].
  - inversion Ha; subst. destruct (ceq_spec x c_fffd) as [E|E]; [subst x; vm_compute in H1; discriminate|reflexivity].
  - inversion Ha; inversion Hb; subst. destruct (ceq_spec x y) as [E|E]; [|reflexivity].
    apply IH; auto. congruence.
Qed.

Lemma strip_same_placeholder : forall k r, strip_prefix (placeholder k) (placeholder k ++ r) = Some r.
Proof. intros. apply strip_prefix_some. reflexivity. Qed.

Lemma strip_other_placeholder : forall k j r, j <> k -> strip_prefix (placeholder k) (placeholder j ++ r) = None.
Proof.
  intros k j r H. unfold placeholder. cbn [app strip_prefix]. rewrite ceq_refl.
  rewrite <- app_assoc. cbn [app]. apply strip_digits_other; try apply dec_digits.
  intros E. apply dec_inj in E. congruence.
Qed.

(** At the closing U+FFFD of a placeholder: the following literal is no number
    followed by a placeholder. *)
Lemma strip_closing : forall n k t, weak n t -> strip_prefix (placeholder k) (c_fffd :: enc t) = None.
Proof.
  intros n k t W. destruct (strip_prefix (placeholder k) (c_fffd :: enc t)) as [r|] eqn:E; [|reflexivity].
  exfalso. apply strip_prefix_some in E. unfold placeholder in E. cbn [app] in E. injection E as E.
  rewrite <- app_assoc in E. cbn [app] in E.
  destruct t as [l|l j t]; cbn [enc weak] in *.
  - apply W. rewrite E. apply in_or_app. right. left. reflexivity.
  - destruct W as (N & K & _ & _). unfold placeholder in E. cbn [app] in E.
    apply app_eq_app in E. destruct E as (z & [[P1 P2]|[P1 P2]]).
    + destruct z as [|e z]; cbn [app] in P2; [clear P2|injection P2 as P3 P4].
      * rewrite app_nil_r in P1. destruct K as [K|(c & I & D)].
        -- apply (dec_nonempty k). congruence.
        -- pose proof (dec_digits k) as DD. unfold is_digit_str in DD. rewrite Forall_forall in DD.
           rewrite (DD c) in D; [discriminate|]. congruence.
      * subst e. apply N. rewrite P1. apply in_or_app. right. left. reflexivity.
    + destruct z as [|e z]; cbn [app] in P2; [clear P2|injection P2 as P3 P4].
      * rewrite app_nil_r in P1. destruct K as [K|(c & I & D)].
        -- apply (dec_nonempty k). congruence.
        -- pose proof (dec_digits k) as DD. unfold is_digit_str in DD. rewrite Forall_forall in DD.
           rewrite (DD c) in D; [discriminate|]. congruence.
      * subst e. apply (digits_no_f _ (dec_digits k)). rewrite P1. apply in_or_app. right. left. reflexivity.
Qed.

Lemma replace_skip : forall ds p by_ r fuel, List.length (ds ++ r) <= fuel ->
  (forall a b, ds = a ++ b -> b <> [] -> strip_prefix p (b ++ r) = None) ->
  replace_sub_fuel fuel p by_ (ds ++ r) = ds ++ replace_sub_fuel (fuel - List.length ds) p by_ r.
Proof.
  induction ds as [|d ds IH]; intros p by_ r fuel L H.
  - cbn. rewrite Nat.sub_0_r. reflexivity.
  - destruct fuel as [|fuel]; [cbn in L; lia|]. cbn [app replace_sub_fuel].
    pose proof (H [] (d :: ds) eq_refl ltac:(discriminate)) as HN. cbn [app] in HN. rewrite HN.
    f_equal. cbn [List.length Nat.sub]. apply IH; [cbn in L; lia|].
    intros a b E Hb. apply (H (d :: a) b); [rewrite E; reflexivity|exact Hb].
Qed.

Lemma replace_placeholder : forall n k by_ t fuel, weak n t -> List.length (enc t) <= fuel ->
  replace_sub_fuel fuel (placeholder k) by_ (enc t) = enc (subst k by_ t).
Proof.
  intros n k by_ t. induction t as [l|l j t IH]; intros fuel W L; cbn [enc weak subst] in *.
  - rewrite <- (app_nil_r l) at 1. rewrite replace_skip.
    + destruct (fuel - List.length l); cbn; apply app_nil_r.
    + rewrite app_nil_r. exact L.
    + intros a b E Hb. destruct b as [|c b]; [congruence|]. cbn [app]. apply strip_none_char.
      intros ->. apply W. rewrite E. apply in_or_app. right. left. reflexivity.
  - destruct W as (N & K & Kn & W). rewrite replace_skip; auto.
    2:{ intros a b E Hb. destruct b as [|c b]; [congruence|]. cbn [app]. apply strip_none_char.
        intros ->. apply N. rewrite E. apply in_or_app. right. left. reflexivity. }
    rewrite !app_length in L. set (fuel1 := fuel - List.length l). assert (L1 : List.length (placeholder j) + List.length (enc t) <= fuel1) by lia. clearbody fuel1.
    destruct (j =? k) eqn:E.
    + apply Nat.eqb_eq in E. subst j. rewrite enc_glue, <- app_assoc. f_equal.
      destruct fuel1 as [|f]; [unfold placeholder in L1; cbn [List.length] in L1; lia|].
      assert (SS : strip_prefix (placeholder k) (placeholder k ++ enc t) = Some (enc t)) by apply strip_same_placeholder.
      destruct (placeholder k) as [|c0 q] eqn:EP; [discriminate|].
      cbn [app replace_sub_fuel] in *. cbn [List.length] in L1. rewrite SS. f_equal. apply IH; auto. lia.
    + apply Nat.eqb_neq in E. cbn [enc]. f_equal. rewrite replace_skip.
      * f_equal. apply IH; auto. lia.
      * rewrite app_length. exact L1.
      * intros a b Eb Hb. unfold placeholder in Eb.
        destruct a as [|x a]; cbn [app] in Eb.
        -- subst b. change (c_fffd :: dec j ++ [c_fffd]) with (placeholder j). apply strip_other_placeholder. exact E.
        -- injection Eb as _ Eb. destruct b as [|c b]; [congruence|].
           apply app_eq_app in Eb. destruct Eb as (z & [[P1 P2]|[P1 P2]]).
           ++ destruct z as [|e z]; cbn [app] in P2; injection P2 as P3 P4.
              ** subst c b. cbn [app]. eapply strip_closing. exact W.
              ** subst e. apply strip_none_char. intros ->. apply (digits_no_f _ (dec_digits j)).
                 rewrite P1. apply in_or_app. right. left. reflexivity.
           ++ destruct z as [|e z]; cbn [app] in P2.
              ** injection P2 as <- <-. cbn [app]. eapply strip_closing. exact W.
              ** destruct z; discriminate.
Qed.

(** The replacements as recorded: placeholder [i] with its text. *)
Definition reps_ok (reps : list (str * str)) : Prop :=
  forall i p, nth_error reps i = Some p -> fst p = placeholder i /\ no_f (snd p) /\ has_nondigit (snd p).

Lemma weak_unused : forall n t, weak n t -> (forall k, k < n -> ~ uses k t) -> exists l, t = Last l.
Proof.
  intros n [l|l k t] W H; [eauto|]. exfalso. destruct W as (_ & _ & K & _). apply (H k K). left. reflexivity.
Qed.

Lemma restore_from : forall reps n t,
  reps_ok reps -> n = List.length reps -> weak n t ->
  forall todo done_, reps = done_ ++ todo -> (forall k, k < List.length done_ -> ~ uses k t) ->
  exists l, fold_left (fun acc r => replace_sub (fst r) (snd r) acc) todo (enc t) = l
    /\ no_f l /\ G l = seen (map snd reps) t.
Proof.
  intros reps n t R En W todo. revert t W. induction todo as [|r todo IH]; intros t W done_ E U.
  - rewrite app_nil_r in E. subst done_. destruct (weak_unused n t W) as (l & ->).
    + intros k Hk. apply U. lia.
    + cbn. exists l. auto.
  - cbn [fold_left].
    assert (Hr : nth_error reps (List.length done_) = Some r).
    { rewrite E, nth_error_app2 by lia. rewrite Nat.sub_diag. reflexivity. }
    destruct (R _ _ Hr) as (P & N & D). rewrite P. unfold replace_sub.
    rewrite (replace_placeholder n); auto.
    assert (Hn : nth (List.length done_) (map snd reps) [] = snd r).
    { rewrite E, map_app, app_nth2 by (rewrite map_length; lia). rewrite map_length, Nat.sub_diag. reflexivity. }
    destruct (IH (subst (List.length done_) (snd r) t)) with (done_ := done_ ++ [r]) as (l & E1 & N1 & G1).
    + apply weak_subst; auto.
    + rewrite <- app_assoc. exact E.
    + intros k Hk Hu. apply uses_subst in Hu. destruct Hu as [Hne Hu]. rewrite app_length in Hk. cbn in Hk.
      apply (U k); auto. lia.
    + exists l. split; [exact E1|]. split; auto. rewrite G1, <- Hn. apply seen_subst.
Qed.

End Seen.

Section Case.
Variable U : Uni.
Variable PN : list (str * str).
Variable user common : list str.
Variable see : char -> str.
Hypothesis CB : case_blind U see.
Hypothesis CL : caseless_laws U.
Hypothesis NT : noun_table U PN user.
Notation G := (flat_map see).

Lemma lower_f : forall s, In c_fffd s -> In c_fffd (u_lower_str U s).
Proof. intros s. apply (cl_fffd _ CL). Qed.
Lemma lower_f_inv : forall s, In c_fffd (u_lower_str U s) -> In c_fffd s.
Proof. intros s. apply (cl_fffd _ CL). Qed.

(** Matching. *)
Lemma G_normalize_apostrophes : forall s, G (normalize_apostrophes s) = G s.
Proof.
  intros s. unfold normalize_apostrophes, replace_char. induction s as [|c s IH]; [reflexivity|].
  cbn [flat_map]. rewrite flat_map_app, IH. f_equal. destruct (ceq_spec c c_rsq) as [->|E]; cbn; rewrite app_nil_r; auto.
  symmetry. apply (cb_rsq _ _ CB).
Qed.

Lemma in_normalize_apostrophes : forall x s, x <> c_rsq -> x <> c_sq ->
  (In x (normalize_apostrophes s) <-> In x s).
Proof.
  intros x s H1 H2. unfold normalize_apostrophes, replace_char. rewrite in_flat_map. split.
  - intros (y & I & J). destruct (ceq_spec y c_rsq) as [->|E]; destruct J as [<-|[]]; congruence.
  - intros I. exists x. split; auto. destruct (ceq_spec x c_rsq) as [E|E]; [congruence|left; reflexivity].
Qed.

Lemma f_ne : c_fffd <> c_rsq /\ c_fffd <> c_sq /\ c_sp <> c_rsq /\ c_sp <> c_sq.
Proof. repeat split; discriminate. Qed.

Lemma forallb_false_ex : forall (p : char -> bool) s, forallb p s = false -> exists c, In c s /\ p c = false.
Proof.
  intros p s. induction s as [|c s IH]; cbn; [discriminate|]. destruct (p c) eqn:E; cbn.
  - intros H. destruct (IH H) as (d & I & D). eauto.
  - eauto.
Qed.

Lemma match_facts : forall canonical sub,
  In c_sp canonical -> no_f canonical ->
  matches_ignoring_apostrophes U sub (u_lower_str U canonical) = true ->
  no_f sub /\ has_nondigit sub /\ G canonical = G sub.
Proof.
  intros canonical sub Sp Nc M. unfold matches_ignoring_apostrophes in M. apply seqb_true in M.
  destruct f_ne as (F1 & F2 & S1 & S2). split; [|split].
  - intros I. apply lower_f in I. apply (proj2 (in_normalize_apostrophes _ _ F1 F2)) in I. rewrite M in I.
    apply (proj1 (in_normalize_apostrophes _ _ F1 F2)) in I. apply lower_f_inv in I. apply lower_f_inv in I. auto.
  - destruct (forallb is_ascii_digit sub) eqn:E.
    + exfalso. apply forallb_Forall in E. pose proof (cl_digits _ CL _ E) as L. rewrite L in M.
      assert (I : In c_sp (normalize_apostrophes (u_lower_str U (u_lower_str U canonical)))).
      { apply (proj2 (in_normalize_apostrophes _ _ S1 S2)). apply (cl_space _ CL). apply (cl_space _ CL). exact Sp. }
      rewrite <- M in I. apply (proj1 (in_normalize_apostrophes _ _ S1 S2)) in I. rewrite Forall_forall in E.
      apply E in I. vm_compute in I. discriminate.
    + apply forallb_false_ex. exact E.
  - rewrite <- (cb_lower _ _ CB sub), <- (G_normalize_apostrophes (u_lower_str U sub)), M,
      G_normalize_apostrophes, !(cb_lower _ _ CB). reflexivity.
Qed.

Lemma last_char_snoc : forall x d, last_char (x ++ [d]) = Some d.
Proof. intros. unfold last_char. rewrite rev_app_distr. reflexivity. Qed.

Lemma last_char_ok : forall A, opt_alnum U (last_char A) = false -> last_ok A.
Proof.
  intros A H x d ->. rewrite last_char_snoc in H. cbn in H.
  destruct (is_ascii_digit d) eqn:E; [|reflexivity]. apply (cl_digit_alnum _ CL) in E. destruct E. congruence.
Qed.

Lemma scan_found : forall key n rest prev pos last pre pre' sub post before,
  scan_noun U key n prev pos last pre rest = Found pre' sub post ->
  prev = last_char (before ++ rev pre) ->
  rev pre ++ rest = pre' ++ sub ++ post /\ matches_ignoring_apostrophes U sub key = true
  /\ opt_alnum U (last_char (before ++ pre')) = false.
Proof.
  intros key n. induction rest as [|c r IH]; intros prev pos last pre pre' sub post before H P; cbn [scan_noun] in H; [discriminate|].
  destruct (negb (List.length (firstn n (c :: r)) =? n)); [discriminate|].
  assert (P' : Some c = last_char (before ++ rev (c :: pre))).
  { cbn [rev]. rewrite app_assoc. symmetry. apply last_char_snoc. }
  assert (Step : forall pos last, scan_noun U key n (Some c) pos last (c :: pre) r = Found pre' sub post ->
    rev pre ++ c :: r = pre' ++ sub ++ post /\ matches_ignoring_apostrophes U sub key = true
    /\ opt_alnum U (last_char (before ++ pre')) = false).
  { intros pos' last' H'. destruct (IH _ _ _ _ _ _ _ before H' P') as (A & B & C). split; [|auto].
    rewrite <- A. cbn [rev]. rewrite <- app_assoc. reflexivity. }
  destruct (matches_ignoring_apostrophes U (firstn n (c :: r)) key) eqn:M; [|eapply Step; exact H].
  destruct (negb (opt_alnum U prev) && negb (opt_alnum U (hd_error (skipn n (c :: r))))) eqn:B; [|eapply Step; exact H].
  injection H as <- <- <-. rewrite firstn_skipn. split; [reflexivity|]. split; [exact M|].
  apply andb_prop in B. destruct B as [B _]. rewrite <- P. destruct (opt_alnum U prev); [discriminate|reflexivity].
Qed.

Lemma take_possessive_spec : forall post poss post', take_possessive post = (poss, post') ->
  post = poss ++ post' /\ no_f poss.
Proof.
  intros post poss post' H. unfold take_possessive in H.
  destruct (strip_prefix [c_sq; c_s] post) as [r|] eqn:E1.
  - injection H as <- <-. apply strip_prefix_some in E1. split; [exact E1|].
    intros [I|[I|[]]]; discriminate.
  - destruct (strip_prefix [c_rsq; c_s] post) as [r|] eqn:E2; injection H as <- <-.
    + apply strip_prefix_some in E2. split; [exact E2|]. intros [I|[I|[]]]; discriminate.
    + split; [reflexivity|apply no_f_nil].
Qed.

Definition noun_ok (p : str * str) : Prop :=
  snd p = u_lower_str U (fst p) /\ In c_sp (fst p) /\ no_f (fst p).

(** The state while nouns are being replaced. *)
Definition marked (X : str) (text : str) (reps : list (str * str)) : Prop :=
  reps_ok reps /\ exists t, text = enc t /\ wf (List.length reps) t /\ seen see (map snd reps) t = X.

Lemma reps_ok_snoc : forall reps r, reps_ok reps -> no_f r -> has_nondigit r ->
  reps_ok (reps ++ [(placeholder (List.length reps), r)]).
Proof.
  intros reps r R N D i p H. destruct (Nat.lt_ge_cases i (List.length reps)) as [L|L].
  - rewrite nth_error_app1 in H by lia. auto.
  - rewrite nth_error_app2 in H by lia. destruct (i - List.length reps) as [|[|?]] eqn:E; cbn in H; try discriminate.
    injection H as <-. assert (i = List.length reps) by lia. subst i. auto.
Qed.

Lemma noun_loop_marked : forall X p, noun_ok p -> forall fuel before rest reps,
  marked X (before ++ rest) reps ->
  marked X (fst (noun_loop U fuel (fst p) (snd p) before rest reps))
    (snd (noun_loop U fuel (fst p) (snd p) before rest reps)).
Proof.
  intros X [canonical key] (K & Sp & Nc). cbn [fst snd] in *. subst key.
  induction fuel as [|fuel IH]; intros before rest reps M; cbn [noun_loop]; [exact M|].
  destruct (scan_noun U (u_lower_str U canonical) (List.length (u_lower_str U canonical)) (last_char before) 0 0 [] rest)
    as [pre sub post|last] eqn:E.
  - destruct (take_possessive post) as [poss post'] eqn:T. apply take_possessive_spec in T. destruct T as [T Np].
    apply IH. clear IH.
    destruct (scan_found _ _ _ _ _ _ _ _ _ _ before E) as (A & B & C).
    { cbn [rev]. rewrite app_nil_r. reflexivity. }
    cbn [rev app] in A. destruct (match_facts _ _ Sp Nc B) as (Ns & Ds & Gs).
    destruct M as (R & t & Et & W & S').
    assert (Dn : has_nondigit (canonical ++ poss)).
    { exists c_sp. split; [apply in_or_app; auto|reflexivity]. }
    split.
    + apply reps_ok_snoc; auto. apply no_f_app. auto.
    + destruct (cover see (List.length reps) (map snd reps) (canonical ++ poss) t (before ++ pre) (sub ++ poss) post')
        as (t' & Et' & W' & St'); auto.
      * rewrite map_length. lia.
      * rewrite <- Et, A, T. rewrite <- !app_assoc. reflexivity.
      * apply no_f_app. auto.
      * destruct Ds as (c & I & D). exists c. split; auto. apply in_or_app. auto.
      * apply last_char_ok. exact C.
      * rewrite !flat_map_app, Gs. reflexivity.
      * exists t'. rewrite map_length in *. split.
        { rewrite <- Et'. rewrite <- !app_assoc. reflexivity. }
        rewrite app_length, Nat.add_comm. cbn [List.length plus]. split; [exact W'|].
        rewrite map_app. etransitivity; [exact St'|exact S'].
  - destruct (0 <? last); [|exact M]. apply IH. rewrite <- app_assoc, firstn_skipn. exact M.
Qed.

Lemma insert_noun_forall : forall (P : str * str -> Prop) x l, P x -> Forall P l -> Forall P (insert_noun x l).
Proof.
  intros P x l Hx H. induction H as [|y l Hy H IH]; cbn [insert_noun]; auto.
  destruct (_ <? _); auto.
Qed.

Lemma multiword_ok : forall cl nouns, Forall no_f nouns -> Forall noun_ok (multiword_of U cl nouns).
Proof.
  intros cl nouns H. unfold multiword_of. induction H as [|x l Hx H IH]; cbn [flat_map]; auto.
  apply Forall_app. split; auto. destruct (contains_char c_sp x) eqn:E; auto.
  cbv zeta. destruct (existsb _ cl); auto. constructor; auto. split; [reflexivity|]. split; auto.
  apply contains_char_true. exact E.
Qed.

Lemma collect_ok : Forall noun_ok (collect_multiword U PN user common).
Proof.
  unfold collect_multiword. cbv zeta.
  assert (H : Forall noun_ok (multiword_of U (map (u_lower_str U) common) (map fst PN)
    ++ multiword_of U (map (u_lower_str U) common) user)).
  { apply Forall_app. destruct NT as [N1 N2]. split; apply multiword_ok; auto.
    rewrite Forall_map. eapply Forall_impl; [|exact N1]. cbn beta. tauto. }
  revert H. generalize (@nil (str * str)) (Forall_nil noun_ok).
  match goal with |- context [fold_left _ ?l _] => generalize l end.
  intros l. induction l as [|x l IH]; intros acc Ha H; cbn [fold_left]; auto.
  inversion H; subst. apply IH; auto. apply insert_noun_forall; auto.
Qed.

Lemma replace_multiword_marked : forall text nouns, no_f text -> Forall noun_ok nouns ->
  marked (G text) (fst (replace_multiword U text nouns)) (snd (replace_multiword U text nouns)).
Proof.
  intros text nouns Nt Hn. unfold replace_multiword.
  assert (M : marked (G text) text []).
  { split; [intros [|i] p H; discriminate|]. exists (Last text). auto. }
  revert M. generalize (@nil (str * str)). generalize text at 2 4 5. clear Nt.
  induction Hn as [|p nouns Hp Hn IH]; intros cur reps M; cbn [fold_left fst snd]; [exact M|].
  pose proof (noun_loop_marked _ p Hp (S (List.length cur)) [] cur reps M) as M'.
  destruct (noun_loop U (S (List.length cur)) (fst p) (snd p) [] cur reps) as [cur' reps']. apply IH. exact M'.
Qed.

(** Words. *)
Lemma G_ascii_lower : forall s, G (map ascii_lower s) = G s.
Proof.
  induction s as [|c s IH]; [reflexivity|]. cbn [map flat_map]. rewrite IH. f_equal.
  unfold ascii_lower. destruct (is_ascii_upper c) eqn:E; auto. apply (cb_ascii _ _ CB).
  unfold is_ascii_upper in E. lia.
Qed.

Lemma no_f_ascii_lower : forall s, no_f s -> no_f (map ascii_lower s).
Proof.
  intros s H I. apply in_map_iff in I. destruct I as (c & E & I). unfold ascii_lower in E.
  destruct (is_ascii_upper c) eqn:D.
  - unfold is_ascii_upper in D. unfold c_fffd in E. lia.
  - subst. auto.
Qed.

Lemma pronoun_i_facts : forall w w', pronoun_i w = Some w' -> no_f w -> no_f w' /\ G w = G w'.
Proof.
  intros w w' H N.
  assert (Hi : forall c, eq_ignore_ascii_case c c_i = true -> see c = see c_I).
  { intros c E. unfold eq_ignore_ascii_case in E. apply ceq_true in E. change (ascii_lower c_i) with c_i in E.
    pose proof (G_ascii_lower [c]) as A. pose proof (G_ascii_lower [c_I]) as B.
    cbn [map flat_map] in A, B. rewrite !app_nil_r in A, B. rewrite <- A, <- B, E. reflexivity. }
  destruct w as [|c [|q r]]; cbn [pronoun_i] in H; [discriminate| |].
  - destruct (eq_ignore_ascii_case c c_i) eqn:E; [|discriminate]. injection H as <-. split.
    + intros [I|[]]; discriminate.
    + cbn. rewrite (Hi c E). reflexivity.
  - destruct (eq_ignore_ascii_case c c_i) eqn:E; cbn [andb] in H; [|discriminate].
    destruct (ceq q c_sq || ceq q c_rsq) eqn:Q; [|discriminate]. injection H as <-.
    apply no_f_cons in N. destruct N as [N1 N]. apply no_f_cons in N. destruct N as [N2 N3]. split.
    + apply no_f_cons. split; [discriminate|]. apply no_f_cons. split; auto. apply no_f_ascii_lower. exact N3.
    + cbn [flat_map]. rewrite G_ascii_lower, (Hi c E). reflexivity.
Qed.

Lemma strip_possessive_spec : forall w stem poss, strip_possessive w = (stem, poss) ->
  w = stem ++ poss /\ (poss = [] \/ poss = [c_sq; c_s] \/ poss = [c_rsq; c_s]).
Proof.
  intros w stem poss H. unfold strip_possessive in H.
  destruct (strip_suffix [c_sq; c_s] w) as [r|] eqn:E1.
  - injection H as <- <-. apply strip_suffix_some in E1. auto.
  - destruct (strip_suffix [c_rsq; c_s] w) as [r|] eqn:E2; injection H as <- <-.
    + apply strip_suffix_some in E2. auto.
    + rewrite app_nil_r. auto.
Qed.

(** What [find_proper_noun] returns. *)
Lemma find_noun_some : forall w w', find_proper_noun U PN user common w = Some w' ->
  exists lead core rest noun, w = lead ++ core ++ rest /\ w' = lead ++ noun ++ rest
    /\ u_lower_str U noun = u_lower_str U core /\ no_f noun.
Proof.
  intros w w' H. unfold find_proper_noun in H.
  set (il := fun c => negb (u_alnum U c || ceq c c_at)) in *. cbv zeta in H.
  destruct (strip_possessive (drop_while il w)) as [stem poss] eqn:SP.
  apply strip_possessive_spec in SP. destruct SP as [SP _].
  set (core := drop_while_end (fun c => negb (u_alnum U c)) stem) in *.
  assert (Es : stem = core ++ skipn (List.length core) stem).
  { destruct (drop_while_end_app (fun c => negb (u_alnum U c)) stem) as (t & E & _). fold core in E.
    rewrite E at 2. rewrite skipn_app, skipn_all, Nat.sub_diag. cbn [skipn app]. exact E. }
  set (trailing := skipn (List.length core) stem) in *. clearbody trailing core.
  assert (Ew : w = take_while il w ++ core ++ (trailing ++ poss)).
  { rewrite <- (drop_while_app_take il w) at 1. rewrite SP, Es, <- app_assoc. reflexivity. }
  destruct (is_nil core || negb (existsb (u_alpha U) core)); [discriminate|].
  destruct (existsb _ common); [discriminate|].
  destruct NT as [N1 N2]. rewrite Forall_forall in N1, N2.
  destruct (find (fun n => seqb (u_lower_str U n) (u_lower_str U core)) user) as [n|] eqn:F1.
  - injection H as <-. apply find_some in F1. destruct F1 as [I E]. apply seqb_true in E.
    exists (take_while il w), core, (trailing ++ poss), n. split; [exact Ew|]. split; [reflexivity|].
    split; [exact E|exact (N2 _ I)].
  - destruct (find (fun p => seqb (snd p) (u_lower_str U core)) PN) as [p|] eqn:F2; [|discriminate].
    injection H as <-. apply find_some in F2. destruct F2 as [I E]. apply seqb_true in E.
    destruct (N1 _ I) as [K Nf].
    exists (take_while il w), core, (trailing ++ poss), (fst p). split; [exact Ew|]. split; [reflexivity|].
    split; [congruence|exact Nf].
Qed.

Lemma find_noun_facts : forall w w', find_proper_noun U PN user common w = Some w' -> no_f w -> no_f w' /\ G w = G w'.
Proof.
  intros w w' H N. destruct (find_noun_some _ _ H) as (lead & core & rest & noun & -> & -> & L & Nn).
  apply no_f_app in N. destruct N as [N1 N]. apply no_f_app in N. destruct N as [N2 N3]. split.
  - apply no_f_app. split; auto. apply no_f_app. auto.
  - rewrite !flat_map_app. rewrite <- (cb_lower _ _ CB core), <- L, (cb_lower _ _ CB). reflexivity.
Qed.

(** A word with a placeholder is never a proper noun. *)
Lemma drop_while_stop : forall p a d b, p d = false -> exists a',
  drop_while p (a ++ d :: b) = a' ++ d :: b /\ (a' = [] \/ a' <> [] /\ exists x, a = x ++ a').
Proof.
  intros p a d b Hd. induction a as [|c a IH]; cbn [app drop_while].
  - rewrite Hd. exists []. auto.
  - destruct (p c).
    + destruct IH as (a' & E & H). exists a'. split; [exact E|]. destruct H as [H|(Hn & x & ->)]; [auto|].
      right. split; auto. exists (c :: x). reflexivity.
    + exists (c :: a). split; [reflexivity|]. right. split; [discriminate|]. exists []. reflexivity.
Qed.

Lemma drop_while_end_stop : forall p a d b, p d = false -> exists b' b2,
  drop_while_end p (a ++ d :: b) = a ++ d :: b' /\ b = b' ++ b2.
Proof.
  intros p a d b Hd. unfold drop_while_end. rewrite rev_app_distr. cbn [rev]. rewrite <- app_assoc. cbn [app].
  destruct (drop_while_stop p (rev b) d (rev a) Hd) as (a' & -> & H).
  rewrite rev_app_distr. cbn [rev]. rewrite rev_involutive, <- app_assoc. cbn [app].
  exists (rev a'). destruct H as [->|(_ & x & E)].
  - exists b. split; reflexivity.
  - exists (rev x). split; [reflexivity|]. rewrite <- rev_app_distr, <- E. symmetry. apply rev_involutive.
Qed.

Lemma no_noun_with_placeholder : forall a k b, find_proper_noun U PN user common (a ++ placeholder k ++ b) = None.
Proof.
  intros a k b. unfold find_proper_noun. cbv zeta.
  set (il := fun c => negb (u_alnum U c || ceq c c_at)).
  (* the digits are d :: ds = ds' ++ [e] *)
  pose proof (dec_digits k) as DD. destruct (dec k) as [|d ds] eqn:Ek; [exfalso; apply (dec_nonempty k); exact Ek|].
  assert (Hd : is_ascii_digit d = true) by (inversion DD; auto).
  assert (Ild : il d = false).
  { unfold il. destruct (cl_digit_alnum _ CL _ Hd) as [A _]. rewrite A. reflexivity. }
  assert (Ilf : il c_fffd = true).
  { unfold il. rewrite (cl_fffd_alnum _ CL). reflexivity. }
  (* body *)
  assert (Body : exists a', drop_while il (a ++ placeholder k ++ b) = a' ++ (d :: ds) ++ c_fffd :: b
     /\ (a' = [] \/ In c_fffd a')).
  { unfold placeholder. rewrite Ek. cbn [app]. rewrite <- app_assoc. cbn [app].
    assert (E : drop_while il (a ++ c_fffd :: d :: ds ++ c_fffd :: b)
      = drop_while il ((a ++ [c_fffd]) ++ d :: ds ++ c_fffd :: b)) by (rewrite <- app_assoc; reflexivity).
    rewrite E. destruct (drop_while_stop il (a ++ [c_fffd]) d (ds ++ c_fffd :: b) Ild) as (a' & -> & H).
    exists a'. split; [reflexivity|]. destruct H as [->|(Hn & x & Ex)]; [left; reflexivity|]. right.
    destruct (exists_last Hn) as (y & z & ->). rewrite app_assoc in Ex. apply app_inj_tail in Ex.
    destruct Ex as [_ <-]. apply in_or_app. right. left. reflexivity. }
  destruct Body as (a' & -> & Ha').
  destruct (strip_possessive (a' ++ (d :: ds) ++ c_fffd :: b)) as [stem poss] eqn:SP.
  apply strip_possessive_spec in SP. destruct SP as [SP Hposs].
  (* the possessive is inside b *)
  assert (Stem : exists b0, stem = a' ++ (d :: ds) ++ c_fffd :: b0).
  { assert (Np : no_f poss) by (destruct Hposs as [->|[->| ->]]; intros I; cbn in I; intuition discriminate).
    rewrite app_assoc in SP. symmetry in SP. apply app_eq_app in SP. destruct SP as (z & [[P1 P2]|[P1 P2]]).
    - destruct z as [|e z].
      + exfalso. cbn [app] in P2. apply Np. rewrite <- P2. left. reflexivity.
      + cbn [app] in P2. injection P2 as <- P2. exists z. rewrite P1, <- app_assoc. reflexivity.
    - exfalso. apply Np. rewrite P2. apply in_or_app. right. left. reflexivity. }
  destruct Stem as (b0 & ->).
  (* the core *)
  destruct (exists_last (l := d :: ds) ltac:(discriminate)) as (ds' & e & Ee).
  assert (He : is_ascii_digit e = true).
  { rewrite Ee in DD. unfold is_digit_str in DD. rewrite Forall_app in DD. destruct DD as [_ DD]. inversion DD; auto. }
  destruct (drop_while_end_stop (fun c => negb (u_alnum U c)) (a' ++ ds') e (c_fffd :: b0)) as (b' & b2 & Ec & Eb).
  { destruct (cl_digit_alnum _ CL _ He) as [A _]. rewrite A. reflexivity. }
  assert (Ec' : drop_while_end (fun c => negb (u_alnum U c)) (a' ++ (d :: ds) ++ c_fffd :: b0) = a' ++ (d :: ds) ++ b').
  { rewrite Ee. rewrite <- (app_assoc ds'). cbn [app]. rewrite app_assoc, Ec, <- app_assoc.
    rewrite <- (app_assoc ds'). reflexivity. }
  rewrite Ec'. clear Ec Ec'.
  assert (Cases : (a' = [] /\ b' = []) \/ In c_fffd (a' ++ (d :: ds) ++ b')).
  { destruct Ha' as [->|I]; [|right; apply in_or_app; auto].
    destruct b' as [|f b']; [left; auto|]. cbn [app] in Eb. injection Eb as <- _. right.
    apply in_or_app. right. apply in_or_app. right. left. reflexivity. }
  destruct Cases as [[-> ->]|I].
  - cbn [app]. rewrite app_nil_r.
    assert (E : existsb (u_alpha U) (d :: ds) = false).
    { destruct (existsb (u_alpha U) (d :: ds)) eqn:E; auto. apply existsb_exists in E. destruct E as (x & I & A).
      unfold is_digit_str in DD. rewrite Forall_forall in DD. apply DD in I.
      apply (cl_digit_alnum _ CL) in I. destruct I. congruence. }
    rewrite E. rewrite orb_true_r. reflexivity.
  - destruct (is_nil _ || _); [reflexivity|]. destruct (existsb _ common); [reflexivity|].
    apply lower_f in I. destruct NT as [N1 N2]. rewrite Forall_forall in N1, N2.
    destruct (find _ user) as [n|] eqn:F1.
    + exfalso. apply find_some in F1. destruct F1 as [J E]. apply seqb_true in E. rewrite <- E in I.
      apply lower_f_inv in I. apply (N2 _ J). exact I.
    + destruct (find _ PN) as [p|] eqn:F2; [|reflexivity].
      exfalso. apply find_some in F2. destruct F2 as [J E]. apply seqb_true in E. rewrite <- E in I.
      destruct (N1 _ J) as [K N]. rewrite K in I. apply lower_f_inv in I. auto.
Qed.

Lemma process_simple_same : forall first w, same see w (process_word_simple U PN user common first w).
Proof.
  intros first w. unfold process_word_simple.
  destruct (is_nil w) eqn:En; [apply is_nil_true in En; subst; apply same_refl|].
  destruct (contains_char c_fffd w) eqn:Ef; [apply same_refl|].
  destruct (all_upper U w); [apply same_refl|].
  destruct (is_acronym U w); [apply same_refl|].
  apply contains_char_false in Ef.
  destruct (pronoun_i w) as [w'|] eqn:P.
  { destruct (pronoun_i_facts _ _ P Ef). apply same_end; auto. }
  destruct (find_proper_noun U PN user common w) as [w'|] eqn:F.
  { destruct (find_noun_facts _ _ F Ef). apply same_end; auto. }
  assert (Lw : forall s, no_f s -> no_f (u_lower_str U s)).
  { intros s N I. apply lower_f_inv in I. auto. }
  destruct first.
  - destruct w as [|c r]; [apply same_refl|]. cbn [capitalize_first]. apply no_f_cons in Ef. destruct Ef as [E1 E2].
    apply same_end; [apply no_f_cons; auto| |].
    + apply no_f_app. split; [|auto]. intros I. apply (cl_fffd_upper _ CL) in I. congruence.
    + rewrite flat_map_app, (cb_upper _ _ CB), (cb_lower _ _ CB). reflexivity.
  - apply same_end; auto. symmetry. apply (cb_lower _ _ CB).
Qed.

Lemma join_same : forall c, c <> c_fffd -> is_ascii_digit c = false -> forall l m, Forall2 (same see) l m ->
  same see (join [c] l) (join [c] m).
Proof.
  intros c Hc Hd l m H. induction H as [|x y l m Hxy H IH]; [apply same_refl|].
  destruct H as [|x2 y2 l m H2 H].
  - exact Hxy.
  - rewrite !join_cons. cbn [app]. apply same_app_sep; auto.
Qed.

Lemma process_parts_same : forall first l, Forall2 (same see) l (process_parts U PN user common first l).
Proof.
  intros first [|p l]; cbn [process_parts]; constructor; [apply process_simple_same|].
  induction l; cbn [map]; constructor; auto. apply process_simple_same.
Qed.

Lemma process_word_same : forall n first t, wf n t -> same see (enc t) (process_word U PN user common first (enc t)).
Proof.
  intros n first t W. unfold process_word. cbv zeta.
  assert (Sp : forall c, c <> c_fffd -> is_ascii_digit c = false ->
    same see (enc t) (join [c] (process_parts U PN user common first (split_on c (enc t))))).
  { intros c Hc Hd. rewrite <- (join_split_on c (enc t)) at 1. apply join_same; auto. apply process_parts_same. }
  destruct (if contains_char c_dash (enc t) || contains_char c_slash (enc t) then
    find_proper_noun U PN user common (enc t) else None) as [w|] eqn:F.
  - destruct (contains_char c_dash (enc t) || contains_char c_slash (enc t)); [|discriminate].
    destruct t as [l|l k t]; cbn [enc wf] in *.
    + destruct (find_noun_facts _ _ F W). apply same_end; auto.
    + rewrite no_noun_with_placeholder in F. discriminate.
  - destruct (contains_char c_dash (enc t)); [apply Sp; [discriminate|reflexivity]|].
    destruct (contains_char c_slash (enc t)); [apply Sp; [discriminate|reflexivity]|].
    apply process_simple_same.
Qed.

(** A character that is neither a digit nor U+FFFD is in literal text. *)
Lemma enc_split : forall n t a c b, wf n t -> enc t = a ++ c :: b -> c <> c_fffd -> is_ascii_digit c = false ->
  exists t1 t2, a = enc t1 /\ b = enc t2 /\ wf n t1 /\ wf n t2.
Proof.
  intros n t. induction t as [l|l k t IH]; intros a c b W E Hc Hd; cbn [enc wf] in *.
  - exists (Last a), (Last b). rewrite E in W. apply no_f_app in W. destruct W as [W1 W2]. apply no_f_cons in W2.
    repeat split; tauto.
  - destruct W as (N & K & Kn & W). apply app_eq_app in E. destruct E as (z & [[P1 P2]|[P1 P2]]).
    + destruct z as [|e z].
      * exfalso. unfold placeholder in P2. cbn [app] in P2. injection P2 as P2 _. congruence.
      * cbn [app] in P2. injection P2 as <- P2. subst l. apply no_f_app in N. destruct N as [N1 N2].
        apply no_f_cons in N2. destruct N2 as [_ N2].
        exists (Last a), (Seg z k t). cbn [enc wf]. split; [reflexivity|]. split; [exact P2|]. split; [exact N1|].
        split; [exact N2|]. split; [|auto]. apply last_ok_suffix in K. apply (last_ok_suffix [c]) in K. exact K.
    + apply app_eq_app in P2. destruct P2 as (y & [[Q1 Q2]|[Q1 Q2]]).
      * destruct y as [|e y].
        { rewrite app_nil_r in Q1. cbn [app] in Q2.
          destruct (IH [] c b W (eq_sym Q2) Hc Hd) as (t1 & t2 & E1 & -> & W1 & W2).
          exists (Seg l k t1), t2. cbn [enc wf]. split; [rewrite <- E1, P1, Q1, app_nil_r; reflexivity|]. auto 10. }
        exfalso. assert (I : In c (placeholder k)).
        { cbn [app] in Q2. injection Q2 as <- Q2. rewrite Q1. apply in_or_app. right. left. reflexivity. }
        unfold placeholder in I. destruct I as [I|I]; [congruence|]. apply in_app_or in I. destruct I as [I|[I|[]]]; [|congruence].
        pose proof (dec_digits k) as DD. unfold is_digit_str in DD. rewrite Forall_forall in DD. apply DD in I. congruence.
      * destruct (IH y c b W Q2 Hc Hd) as (t1 & t2 & -> & -> & W1 & W2).
        exists (Seg l k t1), t2. cbn [enc wf]. split; [rewrite P1, Q1; reflexivity|]. auto 10.
Qed.

Lemma sep_facts : forall c, is_ws c = true \/ is_delim c = true -> c <> c_fffd /\ is_ascii_digit c = false.
Proof.
  intros c H. unfold is_ws, is_delim, ceq, c_colon, c_semi, c_emdash, c_endash, c_fffd, is_ascii_digit in *.
  split; lia.
Qed.

Lemma process_chars_same : forall n s cur count first after t, wf n t -> rev cur ++ s = enc t ->
  same see (rev cur ++ s) (fst (process_chars U PN user common cur count first after s)).
Proof.
  intros n. induction s as [|c r IH]; intros cur count first after t W E; cbn [process_chars].
  - destruct (is_nil cur) eqn:En.
    + apply is_nil_true in En. subst. apply same_refl.
    + cbn [fst]. rewrite app_nil_r in *. rewrite E. eapply process_word_same. exact W.
  - assert (Sep : is_ws c = true \/ is_delim c = true -> forall count1 first1 after1 isf,
      same see (rev cur ++ c :: r)
        ((if is_nil cur then [] else process_word U PN user common isf (rev cur))
          ++ c :: fst (process_chars U PN user common [] count1 first1 after1 r))).
    { intros Hs count1 first1 after1 isf. destruct (sep_facts c Hs) as [Hc Hd].
      destruct (enc_split n t (rev cur) c r W (eq_sym E) Hc Hd) as (t1 & t2 & E1 & E2 & W1 & W2).
      apply same_app_sep; auto.
      - destruct (is_nil cur) eqn:En.
        + apply is_nil_true in En. subst cur. apply same_refl.
        + rewrite E1. eapply process_word_same. exact W1.
      - eapply (IH [] _ _ _ t2); [exact W2|exact E2]. }
    destruct (is_ws c) eqn:Ews.
    { specialize (Sep (or_introl eq_refl)). destruct (is_nil cur).
      - specialize (Sep count first after true).
        destruct (process_chars U PN user common [] count first after r). exact Sep.
      - specialize (Sep (S count) false false (should_capitalize U count first after (rev cur))).
        destruct (process_chars U PN user common [] (S count) false false r). exact Sep. }
    destruct (is_delim c) eqn:Ed.
    { specialize (Sep (or_intror eq_refl)). destruct (is_nil cur).
      - specialize (Sep count first true true).
        destruct (process_chars U PN user common [] count first true r). exact Sep.
      - specialize (Sep (S count) false true ((count =? 0) && first)).
        destruct (process_chars U PN user common [] (S count) false true r). exact Sep. }
    specialize (IH (c :: cur) count first after t W). cbn [rev] in IH. rewrite <- app_assoc in IH. cbn [app] in IH.
    apply IH. exact E.
Qed.

Lemma process_text_facts : forall first text, no_f text ->
  no_f (fst (process_text U PN user common first text)) /\ G (fst (process_text U PN user common first text)) = G text.
Proof.
  intros first text N. unfold process_text.
  pose proof (replace_multiword_marked text _ N collect_ok) as M.
  destruct (replace_multiword U text (collect_multiword U PN user common)) as [m reps]. cbn [fst snd] in M.
  destruct M as (R & t & -> & W & S').
  pose proof (process_chars_same _ (enc t) [] 0 first false t W eq_refl) as P. cbn [rev app] in P.
  destruct (process_chars U PN user common [] 0 first false (enc t)) as [out f]. cbn [fst] in P |- *.
  destruct (same_tx see _ (map snd reps) _ _ W P) as (t' & -> & W' & S2).
  unfold restore_placeholders.
  destruct (restore_from see reps _ t' R eq_refl (wf_weak _ _ W') reps [] eq_refl) as (l & -> & N' & G').
  { intros k Hk. cbn in Hk. lia. }
  split; [exact N'|]. congruence.
Qed.

(** Tokens. *)
Definition tok_src (t : token) : str :=
  match t with
  | CodeSpan x => x
  | Quote x d => (if d then c_ldq else c_lsq) :: x ++ [if d then c_rdq else c_rsq]
  | TextTok x => x
  end.

Lemma text_tok_src : forall cur, flat_map tok_src (text_tok cur) = rev cur.
Proof. intros [|c cur]; cbn; [reflexivity|]. apply app_nil_r. Qed.

Lemma tokenize_quotes_src : forall s q cur,
  flat_map tok_src (tokenize_quotes_from q cur s)
  = match q with None => rev cur ++ s | Some (d, x) => (if d then c_ldq else c_lsq) :: rev x ++ s end.
Proof.
  induction s as [|c r IH]; intros q cur; cbn [tokenize_quotes_from].
  - destruct q as [[d x]|]; [cbn; rewrite !app_nil_r; reflexivity|]. rewrite app_nil_r. apply text_tok_src.
  - destruct q as [[d x]|].
    + destruct (ceq_spec c (if d then c_rdq else c_rsq)) as [->|E].
      * cbn [flat_map tok_src]. rewrite IH. cbn [rev app]. rewrite <- app_assoc. reflexivity.
      * rewrite IH. cbn [rev]. rewrite <- app_assoc. reflexivity.
    + destruct (ceq_spec c c_ldq) as [->|E1].
      * rewrite flat_map_app, text_tok_src, IH. reflexivity.
      * destruct (ceq_spec c c_lsq) as [->|E2].
        -- rewrite flat_map_app, text_tok_src, IH. reflexivity.
        -- rewrite IH. cbn [rev]. rewrite <- app_assoc. reflexivity.
Qed.

Lemma tok_no_code : forall s q cur, Forall (fun t => match t with CodeSpan _ => False | _ => True end)
  (tokenize_quotes_from q cur s).
Proof.
  assert (T : forall cur, Forall (fun t => match t with CodeSpan _ => False | _ => True end) (text_tok cur)).
  { intros [|c cur]; cbn; auto. }
  induction s as [|c r IH]; intros q cur; cbn [tokenize_quotes_from].
  - destruct q as [[d x]|]; auto.
  - destruct q as [[d x]|].
    + destruct (ceq c _); auto.
    + destruct (ceq c c_ldq); [apply Forall_app; auto|]. destruct (ceq c c_lsq); [apply Forall_app; auto|]. auto.
Qed.

Lemma normalize_quotes_facts : forall s prev open, no_f s ->
  no_f (normalize_quotes_from U prev open s) /\ G (normalize_quotes_from U prev open s) = G s.
Proof.
  induction s as [|c r IH]; intros prev open N; cbn [normalize_quotes_from]; [split; [apply no_f_nil|reflexivity]|].
  apply no_f_cons in N. destruct N as [N1 N2].
  destruct (ceq_spec c c_sq) as [->|E1].
  - destruct (single_quote U prev open r) as [q o'] eqn:Q.
    assert (Hq : q = c_sq \/ q = c_lsq \/ q = c_rsq).
    { unfold single_quote in Q. repeat match type of Q with (if ?b then _ else _) = _ => destruct b end;
        injection Q as <- _; auto. }
    destruct (IH (Some c_sq) o' N2) as [I1 I2]. cbn [flat_map]. rewrite I2. split.
    + apply no_f_cons. split; auto. destruct Hq as [->|[->| ->]]; discriminate.
    + f_equal. destruct Hq as [->|[->| ->]]; [reflexivity|apply (cb_lsq _ _ CB)|apply (cb_rsq _ _ CB)].
  - destruct (ceq_spec c c_dq) as [->|E2].
    + assert (Hq : double_quote U prev r = c_ldq \/ double_quote U prev r = c_rdq).
      { unfold double_quote. repeat match goal with |- context [if ?b then _ else _] => destruct b end; auto. }
      destruct (IH (Some c_dq) open N2) as [I1 I2]. cbn [flat_map]. rewrite I2. split.
      * apply no_f_cons. split; auto. destruct Hq as [->| ->]; discriminate.
      * f_equal. destruct Hq as [->| ->]; [apply (cb_ldq _ _ CB)|apply (cb_rdq _ _ CB)].
    + destruct (IH (Some c) open N2) as [I1 I2]. cbn [flat_map]. rewrite I2. split; auto. apply no_f_cons. auto.
Qed.

Lemma let_pair_fst : forall (x : str) (p : str * bool), fst (let '(a, b) := p in (x ++ a, b)) = x ++ fst p.
Proof. intros x [a b]. reflexivity. Qed.

(** Processing a list of tokens: state is the text so far and the flag. *)
Lemma fold_tokens : forall (step : str * bool -> token -> str * bool) tokens,
  Forall (fun t => no_f (tok_src t) -> forall st, exists o, fst (step st t) = fst st ++ o /\ no_f o /\ G o = G (tok_src t)) tokens ->
  no_f (flat_map tok_src tokens) -> forall st,
  exists o, fst (fold_left step tokens st) = fst st ++ o /\ no_f o /\ G o = G (flat_map tok_src tokens).
Proof.
  intros step tokens H. induction H as [|t l Ht H IH]; intros N st; cbn [fold_left flat_map] in *.
  - exists []. rewrite app_nil_r. split; [reflexivity|]. split; [apply no_f_nil|reflexivity].
  - apply no_f_app in N. destruct N as [N1 N2]. destruct (Ht N1 st) as (o1 & E1 & F1 & G1).
    destruct (IH N2 (step st t)) as (o2 & E2 & F2 & G2). exists (o1 ++ o2). rewrite E2, E1, app_assoc.
    split; [reflexivity|]. split; [apply no_f_app; auto|]. rewrite !flat_map_app. congruence.
Qed.

Lemma quote_in_tokens : forall l x d, In (Quote x d) l -> List.length x + 2 <= List.length (flat_map tok_src l).
Proof.
  induction l as [|t l IH]; intros x d I; [destruct I|]. cbn [flat_map]. rewrite app_length. destruct I as [->|I].
  - cbn [tok_src List.length]. rewrite app_length. cbn. lia.
  - apply IH in I. lia.
Qed.

Lemma process_quoted_facts : forall fuel content dbl, List.length content < fuel -> no_f content ->
  no_f (process_quoted U PN fuel user common content dbl)
  /\ G (process_quoted U PN fuel user common content dbl) = G (tok_src (Quote content dbl)).
Proof.
  induction fuel as [|k IH]; intros content dbl L N; [lia|]. cbn [process_quoted]. cbv zeta.
  assert (Hq : (if dbl then c_ldq else c_lsq) <> c_fffd /\ (if dbl then c_rdq else c_rsq) <> c_fffd)
    by (destruct dbl; split; discriminate).
  destruct Hq as [Q1 Q2].
  assert (Wrap : forall body, no_f body -> G body = G content ->
    no_f ((if dbl then c_ldq else c_lsq) :: body ++ [if dbl then c_rdq else c_rsq])
    /\ G ((if dbl then c_ldq else c_lsq) :: body ++ [if dbl then c_rdq else c_rsq])
       = G ((if dbl then c_ldq else c_lsq) :: content ++ [if dbl then c_rdq else c_rsq])).
  { intros body N1 G1. split.
    - apply no_f_cons. split; auto. apply no_f_app. split; auto. apply no_f_cons. split; auto. apply no_f_nil.
    - cbn [flat_map]. rewrite !flat_map_app, G1. reflexivity. }
  destruct (is_nil content) eqn:En.
  { apply is_nil_true in En. subst content. apply (Wrap []); auto. }
  cbn [tok_src]. apply Wrap.
  all: destruct (find (u_alpha U) content) as [a|]; auto; destruct (u_upper U a); auto.
  all: match goal with |- context [fold_left ?f ?l ?st] =>
    assert (HH : exists o, fst (fold_left f l st) = fst st ++ o /\ no_f o /\ G o = G (flat_map tok_src l)) end.
  1,3: apply fold_tokens.
  all: try (unfold tokenize_quotes; rewrite tokenize_quotes_src; exact N).
  all: try (destruct HH as (o & -> & No & Go); cbn [fst app]; auto;
            rewrite Go; unfold tokenize_quotes; rewrite tokenize_quotes_src; reflexivity).
  all: pose proof (tok_no_code content None []) as NC; rewrite Forall_forall in *; intros t It Nt st;
       destruct t as [x|x d|x]; cbn [tok_src] in Nt; cbv beta iota;
       [destruct (NC _ It)
       |assert (Lx : List.length x < k) by (apply quote_in_tokens in It;
          unfold tokenize_quotes in It; rewrite tokenize_quotes_src in It; cbn [rev app] in It; lia);
        assert (Nx : no_f x) by (apply no_f_cons in Nt; destruct Nt as [_ Nt]; apply no_f_app in Nt; tauto);
        destruct (IH x d Lx Nx) as [I1 I2]; cbn [fst]; eexists; split; [reflexivity|]; auto
       |destruct (process_text_facts (snd st) x Nt) as [I1 I2];
        exists (fst (process_text U PN user common (snd st) x)); split; [apply let_pair_fst|auto]].
Qed.

(** Enough fuel for nested quotations. *)
Lemma fold_left_ext_in : forall (A B : Type) (f g : A -> B -> A) l a,
  (forall b a, In b l -> f a b = g a b) -> fold_left f l a = fold_left g l a.
Proof.
  intros A B f g l. induction l as [|b l IH]; intros a H; cbn [fold_left]; [reflexivity|].
  rewrite H by (left; reflexivity). apply IH. intros. apply H. right. assumption.
Qed.

Lemma process_quoted_fuel : forall f1 f2 content dbl, List.length content < f1 -> List.length content < f2 ->
  process_quoted U PN f1 user common content dbl = process_quoted U PN f2 user common content dbl.
Proof.
  induction f1 as [|f1 IH]; intros f2 content dbl L1 L2; [lia|]. destruct f2 as [|f2]; [lia|].
  cbn [process_quoted]. cbv zeta. destruct (is_nil content); [reflexivity|]. do 2 f_equal.
  destruct (find (u_alpha U) content) as [a|]; [|reflexivity]. destruct (u_upper U a); [|reflexivity].
  f_equal. apply fold_left_ext_in. intros t st I. destruct t as [x|x d|x]; auto.
  assert (Lx : List.length x + 2 <= List.length content).
  { apply quote_in_tokens in I. unfold tokenize_quotes in I. rewrite tokenize_quotes_src in I. exact I. }
  rewrite (IH f2 x d) by lia. reflexivity.
Qed.

(** Enough fuel for the noun loop (a key is never empty: it contains a
    space). *)
Lemma scan_shorter : forall key n rest prev pos last pre, 1 <= n ->
  match scan_noun U key n prev pos last pre rest with
  | Found pre' sub post => List.length post < List.length rest
  | Missing last' => True
  end.
Proof.
  intros key n. induction rest as [|c r IH]; intros prev pos last pre Hn; cbn [scan_noun]; [exact I|].
  destruct (negb _); [exact I|]. destruct (matches_ignoring_apostrophes U _ key).
  - destruct (negb (opt_alnum U prev) && _).
    + rewrite skipn_length. cbn [List.length]. lia.
    + specialize (IH (Some c) (S pos) (pos + n) (c :: pre) Hn). destruct (scan_noun _ _ _ _ _ _ _ _); auto. cbn [List.length]. lia.
  - specialize (IH (Some c) (S pos) last (c :: pre) Hn). destruct (scan_noun _ _ _ _ _ _ _ _); auto. cbn [List.length]. lia.
Qed.

Lemma noun_loop_fuel : forall canonical key, key <> [] -> forall f1 f2 before rest reps,
  List.length rest < f1 -> List.length rest < f2 ->
  noun_loop U f1 canonical key before rest reps = noun_loop U f2 canonical key before rest reps.
Proof.
  intros canonical key Hk. assert (Hn : 1 <= List.length key) by (destruct key; [congruence|cbn; lia]).
  induction f1 as [|f1 IH]; intros f2 before rest reps L1 L2; [lia|]. destruct f2 as [|f2]; [lia|].
  cbn [noun_loop]. pose proof (scan_shorter key (List.length key) rest (last_char before) 0 0 [] Hn) as S'.
  destruct (scan_noun U key (List.length key) (last_char before) 0 0 [] rest) as [pre sub post|last].
  - destruct (take_possessive post) as [poss post'] eqn:T. apply take_possessive_spec in T. destruct T as [T _].
    rewrite T, app_length in S'. apply IH; lia.
  - destruct (0 <? last) eqn:E; [|reflexivity]. destruct rest as [|c rest].
    + rewrite skipn_nil, firstn_nil. cbn in L1, L2. destruct f1, f2; cbn [noun_loop scan_noun]; try reflexivity; lia.
    + apply IH; rewrite skipn_length; cbn [List.length] in *; apply Nat.ltb_lt in E; lia.
Qed.

(** The whole function, piece by piece. *)
Lemma text_tokens_facts : forall cur st, no_f (rev cur) ->
  exists o, fst (fold_left (sentence_step U PN user common) (text_tokens U cur) st) = fst st ++ o
    /\ no_f o /\ G o = G (rev cur).
Proof.
  intros cur st N. unfold text_tokens. destruct (is_nil cur) eqn:En.
  { apply is_nil_true in En. subst. exists []. cbn. rewrite app_nil_r. split; [reflexivity|]. split; [apply no_f_nil|reflexivity]. }
  destruct (normalize_quotes_facts (rev cur) None false N) as [N1 G1]. fold (normalize_quotes U (rev cur)) in N1, G1.
  rewrite <- G1. set (s := normalize_quotes U (rev cur)) in *. clearbody s.
  assert (E : flat_map tok_src (tokenize_quotes s) = s) by (unfold tokenize_quotes; rewrite tokenize_quotes_src; reflexivity).
  pose proof (fold_tokens (sentence_step U PN user common) (tokenize_quotes s)) as FT. rewrite E in FT.
  apply FT; [|exact N1]. clear FT.
  pose proof (tok_no_code s None []) as NC. rewrite Forall_forall in *. intros t It Nt st0.
  destruct t as [x|x d|x]; cbn [tok_src] in Nt; cbn [sentence_step].
  - destruct (NC _ It).
  - assert (Nx : no_f x) by (apply no_f_cons in Nt; destruct Nt as [_ Nt]; apply no_f_app in Nt; tauto).
    destruct (process_quoted_facts (S (List.length x)) x d (Nat.lt_succ_diag_r _) Nx) as [I1 I2].
    cbn [fst]. eexists. split; [reflexivity|]. auto.
  - destruct (process_text_facts (snd st0) x Nt) as [I1 I2].
    destruct (process_text U PN user common (snd st0) x) as [o f]. cbn [fst] in *. exists o. split; [reflexivity|]. auto.
Qed.

Definition piece_ok (p : bool * str) (o : str) : Prop :=
  if fst p then o = snd p else G o = G (snd p).

Lemma tokenize_pieces : forall s (code : option str) cur st,
  (code = None -> no_f (rev cur)) -> no_f s ->
  exists outs, fst (fold_left (sentence_step U PN user common) (tokenize_from U code cur s) st)
      = fst st ++ concat outs
    /\ Forall2 piece_ok (match code with None => code_pieces false cur s | Some k => code_pieces true k s end) outs.
Proof.
  induction s as [|c r IH]; intros code cur st Hc N; cbn [tokenize_from code_pieces].
  - destruct code as [k|].
    + exists [rev k]. cbn. rewrite app_nil_r. split; [reflexivity|]. constructor; [reflexivity|constructor].
    + destruct (text_tokens_facts cur st (Hc eq_refl)) as (o & E & No & Go). exists [o]. rewrite E. cbn. rewrite app_nil_r.
      split; [reflexivity|]. constructor; [exact Go|constructor].
  - apply no_f_cons in N. destruct N as [N1 N2]. change (N.eqb c 96) with (ceq c c_bt).
    destruct code as [k|].
    + destruct (ceq c c_bt) eqn:E.
      * cbn [fold_left]. destruct (IH None [] (sentence_step U PN user common st (CodeSpan (rev (c :: k))))) as (outs & E1 & F1).
        { intros _. apply no_f_nil. } { exact N2. }
        exists (rev (c :: k) :: outs). rewrite E1. cbn [sentence_step fst concat]. rewrite <- app_assoc.
        split; [reflexivity|]. constructor; [reflexivity|exact F1].
      * destruct (IH (Some (c :: k)) cur st) as (outs & E1 & F1); auto. { discriminate. } exists outs. auto.
    + destruct (ceq c c_bt) eqn:E.
      * rewrite fold_left_app. destruct (text_tokens_facts cur st (Hc eq_refl)) as (o & Eo & No & Go).
        destruct (IH (Some [c_bt]) [] (fold_left (sentence_step U PN user common) (text_tokens U cur) st)) as (outs & E1 & F1).
        { discriminate. } { exact N2. }
        apply ceq_true in E. subst c.
        exists (o :: outs). rewrite E1, Eo. cbn [concat]. rewrite <- app_assoc.
        split; [reflexivity|]. constructor; [exact Go|exact F1].
      * destruct (IH None (c :: cur) st) as (outs & E1 & F1); auto.
        { intros _. cbn [rev]. apply no_f_app. split; [auto|]. apply no_f_cons. split; auto. apply no_f_nil. }
        exists outs. auto.
Qed.

Theorem sentence_case_pieces : forall text, no_f text ->
  exists outs, to_sentence_case U PN user common text = concat outs /\ Forall2 piece_ok (pieces text) outs.
Proof.
  intros text N. unfold to_sentence_case. destruct (is_nil text) eqn:En.
  { apply is_nil_true in En. subst. exists [[]]. split; [reflexivity|]. constructor; [reflexivity|constructor]. }
  destruct (tokenize_pieces text None [] ([], true)) as (outs & E & F); auto.
  { intros _. apply no_f_nil. }
  exists outs. split; [exact E|exact F].
Qed.

End Case.
