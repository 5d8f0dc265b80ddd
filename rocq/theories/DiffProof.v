(** Printed diffs are read back by [SpecDiff]. *)
From Coq Require Import Bool Arith NArith Lia ZifyBool ZifyNat ZifyN String List.
From Verif Require Import Base BaseFacts DecFacts DecRead SpecContext DiffModel SpecDiff.
Import ListNotations.

Lemma ended_line : forall l cur r, ~ In c_nl l ->
  ended_lines cur (l ++ c_nl :: r) = option_map (cons (rev cur ++ l)) (ended_lines [] r).
Proof.
  induction l as [|c l IH]; intros cur r H.
  - cbn [app ended_lines]. rewrite ceq_refl, app_nil_r. reflexivity.
  - cbn [app ended_lines]. destruct (ceq c c_nl) eqn:E; [apply ceq_true in E; subst; exfalso; apply H; left; reflexivity|].
    rewrite IH by (intro I; apply H; right; exact I). cbn [rev]. rewrite <- app_assoc. reflexivity.
Qed.
Lemma ended_text : forall ls, Forall (fun l => ~ In c_nl l) ls -> ended_lines [] (text_of ls) = Some ls.
Proof.
  induction 1 as [|l ls H _ IH]; [reflexivity|]. unfold text_of in *. cbn [flat_map]. rewrite <- app_assoc. cbn [app].
  rewrite ended_line by exact H. rewrite IH. reflexivity.
Qed.

Lemma diff_line : forall l cur r, plain_line l ->
  diff_lines cur (l ++ c_nl :: r) = (rev cur ++ l ++ [c_nl]) :: diff_lines [] r.
Proof.
  induction l as [|c l IH]; intros cur r [N C].
  - reflexivity.
  - cbn [app diff_lines]. destruct (ceq c c_nl) eqn:E; [apply ceq_true in E; subst; exfalso; apply N; left; reflexivity|].
    destruct (ceq c c_cr) eqn:K.
    + apply ceq_true in K. subst. rewrite (C [] l eq_refl). cbn [app]. rewrite ceq_refl. cbn [rev]. rewrite <- !app_assoc. reflexivity.
    + rewrite IH.
      * cbn [rev]. rewrite <- app_assoc. reflexivity.
      * split; [intro I; apply N; right; exact I|]. intros a b ->. apply (C (c :: a) b). reflexivity.
Qed.
Lemma diff_text : forall ls, Forall plain_line ls -> diff_lines [] (text_of ls) = map (fun l => l ++ [c_nl]) ls.
Proof.
  induction 1 as [|l ls H _ IH]; [reflexivity|]. unfold text_of in *. cbn [flat_map map]. rewrite <- app_assoc. cbn [app].
  rewrite diff_line by exact H. rewrite IH. reflexivity.
Qed.

Definition bare (s : str) : str := removelast s.
Lemma bare_line : forall l, bare (l ++ [c_nl]) = l.
Proof. intro l. apply removelast_last. Qed.
Definition ended (s : str) : Prop := exists l, s = l ++ [c_nl] /\ ~ In c_nl l.
Definition change_line (c : change) : str := sign (fst c) :: bare (snd c).
Definition hunk_lines (h : hunk) : list str := hunk_header h :: map change_line (h_changes h).

Lemma olds_cons : forall c cs, olds (c :: cs) = (if in_old c then [snd c] else []) ++ olds cs.
Proof. intros c cs. unfold olds. cbn [filter]. destruct (in_old c); reflexivity. Qed.
Lemma news_cons : forall c cs, news (c :: cs) = (if in_new c then [snd c] else []) ++ news cs.
Proof. intros c cs. unfold news. cbn [filter]. destruct (in_new c); reflexivity. Qed.

Lemma seqb_same : forall s, seqb s s = true.
Proof. induction s; cbn; [|rewrite ceq_refl]; auto. Qed.

Lemma follow_changes : forall cs d i j xs,
  follow (map change_line cs ++ d) i j (map bare (olds cs) ++ xs)
    (N.of_nat (List.length (olds cs))) (N.of_nat (List.length (news cs))) =
  option_map (app (map bare (news cs)))
    (follow d (i + N.of_nat (List.length (olds cs))) (j + N.of_nat (List.length (news cs))) xs 0 0).
Proof.
  induction cs as [|[t v] cs IH]; intros d i j xs.
  - cbn [map app olds news filter List.length N.of_nat]. rewrite !N.add_0_r.
    destruct (follow d i j xs 0 0); reflexivity.
  - rewrite olds_cons, news_cons. unfold change_line at 1. cbn [map app follow fst snd].
    destruct t; cbn [in_old in_new fst app List.length map sign].
    + destruct (_ && _)%N eqn:Z; [exfalso; lia|]. change (ceq c_dash c_plus) with false. change (ceq c_dash c_dash) with true.
      cbn [snd]. rewrite seqb_same. destruct (negb true || _)%N eqn:Z1; [exfalso; cbn in Z1; lia|].
      replace (N.of_nat (S (List.length (olds cs))) - 1)%N with (N.of_nat (List.length (olds cs))) by lia.
      fold (map change_line cs). rewrite IH. f_equal. f_equal; lia.
    + destruct (_ && _)%N eqn:Z; [exfalso; lia|]. change (ceq c_plus c_plus) with true.
      destruct (0 <? _)%N eqn:Z1; [|exfalso; lia].
      replace (N.of_nat (S (List.length (news cs))) - 1)%N with (N.of_nat (List.length (news cs))) by lia.
      rewrite IH. cbn [snd]. replace (j + 1 + N.of_nat (List.length (news cs)))%N with (j + N.of_nat (S (List.length (news cs))))%N by lia.
      destruct (follow d _ _ xs 0 0); reflexivity.
    + destruct (_ && _)%N eqn:Z; [exfalso; lia|]. change (ceq c_sp c_plus) with false. change (ceq c_sp c_dash) with false. change (ceq c_sp c_sp) with true.
      cbn [snd]. rewrite seqb_same. destruct (negb true || _)%N eqn:Z1; [exfalso; cbn in Z1; lia|].
      destruct (true && _)%N eqn:Z2; [|exfalso; cbn in Z2; lia].
      replace (N.of_nat (S (List.length (olds cs))) - 1)%N with (N.of_nat (List.length (olds cs))) by lia.
      replace (N.of_nat (S (List.length (news cs))) - 1)%N with (N.of_nat (List.length (news cs))) by lia.
      rewrite IH. replace (j + 1 + N.of_nat (List.length (news cs)))%N with (j + N.of_nat (S (List.length (news cs))))%N by lia.
      replace (i + 1 + N.of_nat (List.length (olds cs)))%N with (i + N.of_nat (S (List.length (olds cs))))%N by lia.
      destruct (follow d _ _ xs 0 0); reflexivity.
Qed.

(** ** The header *)
Definition not_digit (r : str) : Prop := match r with [] => True | c :: _ => is_ascii_digit c = false end.
Lemma number_dec : forall n r, not_digit r -> number (dec n ++ r) = Some (N.of_nat n, r).
Proof.
  intros n r H. unfold number.
  assert (T : forall s, is_digit_str s -> take_while is_ascii_digit (s ++ r) = s /\ drop_while is_ascii_digit (s ++ r) = r).
  { induction 1 as [|c s D _ IH]; cbn [app take_while drop_while].
    - destruct r as [|c r]; [auto|]. cbn [not_digit] in H. cbn [take_while drop_while]. rewrite H. auto.
    - rewrite D. destruct IH as [-> ->]. auto. }
  destruct (T _ (dec_digits n)) as [-> ->]. pose proof (dec_nonempty n) as E. rewrite dec_value. destruct (dec n); [congruence|reflexivity].
Qed.
Definition bounded (r : str) : Prop := match r with [] => True | c :: _ => is_ascii_digit c = false /\ c <> c_comma end.
Lemma range_hunk : forall s l r, bounded r ->
  range (hunk_range s l ++ r) = Some (N.of_nat (if l =? 0 then s else s + 1), N.of_nat l, r).
Proof.
  intros s l r H. assert (D : not_digit r) by (destruct r; cbn in *; tauto).
  unfold hunk_range, range. destruct (l =? 1) eqn:E.
  - apply Nat.eqb_eq in E. subst l. cbn [Nat.eqb]. rewrite number_dec by exact D.
    assert (C : strip_prefix [c_comma] r = None).
    { destruct r as [|c r]; [reflexivity|]. cbn [strip_prefix]. destruct (ceq c_comma c) eqn:Z; [|reflexivity].
      apply ceq_true in Z. subst. cbn in H. tauto. }
    rewrite C. reflexivity.
  - rewrite <- !app_assoc. rewrite number_dec by reflexivity. cbn [app strip_prefix]. rewrite ceq_refl.
    rewrite number_dec by exact D. reflexivity.
Qed.
Lemma strip_app : forall p s, strip_prefix p (p ++ s) = Some s.
Proof. induction p as [|c p IH]; intro s; [reflexivity|]. cbn [app strip_prefix]. rewrite ceq_refl. apply IH. Qed.
Definition from (start len : nat) : nat := if len =? 0 then start else start + 1.
Lemma head_hunk : forall h, head_line (hunk_header h) =
  Some (N.of_nat (from (h_old h) (List.length (olds (h_changes h)))), N.of_nat (List.length (olds (h_changes h))),
        N.of_nat (from (h_new h) (List.length (news (h_changes h)))), N.of_nat (List.length (news (h_changes h)))).
Proof.
  intro h. unfold head_line, hunk_header. rewrite strip_app. rewrite range_hunk by (split; [reflexivity|discriminate]).
  rewrite strip_app. rewrite range_hunk by (split; [reflexivity|discriminate]). rewrite seqb_same. reflexivity.
Qed.
Lemma before_from : forall s l, before_hunk (N.of_nat (from s l)) (N.of_nat l) = N.of_nat s.
Proof. intros s l. unfold before_hunk, from. destruct (Nat.eqb_spec l 0); [subst; reflexivity|]. destruct (N.of_nat l =? 0)%N eqn:Z; lia. Qed.

Lemma follow_hunks : forall i j xs ys hs, diff_of i j xs ys hs ->
  follow (flat_map hunk_lines hs) (N.of_nat i) (N.of_nat j) (map bare xs) 0 0 = Some (map bare ys).
Proof.
  induction 1 as [i j rest|i j gap cs xs ys hs N _ IH]; [reflexivity|].
  cbn [flat_map]. unfold hunk_lines at 1. cbn [app follow N.eqb andb].
  rewrite head_hunk. cbn [h_old h_new h_changes]. rewrite !before_from.
  replace (N.of_nat (i + List.length gap) - N.of_nat i)%N with (N.of_nat (List.length gap)) by lia.
  rewrite Nat2N.id. rewrite !map_app.
  destruct (_ || _ || _) eqn:Z.
  { exfalso. rewrite !app_length, !map_length in Z. lia. }
  rewrite firstn_app, skipn_app, !map_length, Nat.sub_diag.
  replace (firstn (List.length gap) (map bare gap)) with (map bare gap)
    by (symmetry; rewrite <- (map_length bare gap) at 1; apply firstn_all).
  replace (skipn (List.length gap) (map bare gap)) with (@nil str)
    by (symmetry; rewrite <- (map_length bare gap) at 1; apply skipn_all).
  cbn [firstn skipn app]. rewrite app_nil_r.
  rewrite follow_changes.
  replace (N.of_nat (i + List.length gap) + N.of_nat (List.length (olds cs)))%N with (N.of_nat (i + List.length gap + List.length (olds cs))) by lia.
  replace (N.of_nat j + N.of_nat (List.length gap) + N.of_nat (List.length (news cs)))%N with (N.of_nat (j + List.length gap + List.length (news cs))) by lia.
  rewrite IH. reflexivity.
Qed.

(** ** The text *)
Lemma change_in : forall cs c, In c cs -> In (snd c) (olds cs) \/ In (snd c) (news cs).
Proof.
  intros cs c H. destruct c as [t v]. destruct t; [left|right|left]; unfold olds, news; apply in_map, filter_In; auto.
Qed.
Lemma diff_changes : forall i j xs ys hs, diff_of i j xs ys hs -> Forall ended xs -> Forall ended ys ->
  Forall (fun h => Forall (fun c => ended (snd c)) (h_changes h)) hs.
Proof.
  induction 1 as [|i j gap cs xs ys hs N _ IH]; intros X Y; [constructor|].
  apply Forall_app in X as [_ X]. apply Forall_app in X as [X1 X2]. apply Forall_app in Y as [_ Y]. apply Forall_app in Y as [Y1 Y2].
  constructor; [|auto]. cbn [h_changes]. rewrite Forall_forall in *. intros c I. destruct (change_in _ _ I); auto.
Qed.
Lemma print_changes : forall cs, Forall (fun c => ended (snd c)) cs ->
  flat_map print_change cs = text_of (map change_line cs).
Proof.
  induction 1 as [|[t v] cs (l & E & N) _ IH]; [reflexivity|]. cbn [snd] in E. subst v. unfold text_of in *. cbn [flat_map map]. rewrite IH.
  f_equal. unfold print_change, change_line. cbn [fst snd]. rewrite bare_line.
  assert (Q : ends_with [c_nl] (l ++ [c_nl]) = true).
  { unfold ends_with, strip_suffix. rewrite rev_app_distr. reflexivity. }
  rewrite Q, app_nil_r. reflexivity.
Qed.
Lemma text_app : forall a b, text_of (a ++ b) = text_of a ++ text_of b.
Proof. intros a b. apply flat_map_app. Qed.
Lemma print_hunks : forall hs, Forall (fun h => Forall (fun c => ended (snd c)) (h_changes h)) hs ->
  flat_map print_hunk hs = text_of (flat_map hunk_lines hs).
Proof.
  induction 1 as [|h hs H _ IH]; [reflexivity|]. cbn [flat_map]. rewrite text_app, <- IH. f_equal.
  unfold print_hunk, hunk_lines. rewrite print_changes by exact H. 
  change (hunk_header h :: map change_line (h_changes h)) with ([hunk_header h] ++ map change_line (h_changes h)).
  rewrite text_app. unfold text_of at 2. cbn [flat_map]. rewrite app_nil_r, <- app_assoc. reflexivity.
Qed.
Lemma dec_no_nl : forall n, ~ In c_nl (dec n).
Proof. intros n I. pose proof (dec_digits n) as D. unfold is_digit_str in D. rewrite Forall_forall in D. specialize (D _ I). discriminate. Qed.
Lemma range_no_nl : forall s l, ~ In c_nl (hunk_range s l).
Proof.
  intros s l. unfold hunk_range. destruct (l =? 1); [apply dec_no_nl|]. intro I. apply in_app_iff in I as [I|I]; [exact (dec_no_nl _ I)|].
  cbn [app In] in I. destruct I as [I|I]; [discriminate|exact (dec_no_nl _ I)].
Qed.
Lemma header_no_nl : forall h, ~ In c_nl (hunk_header h).
Proof.
  intros h I. unfold hunk_header in I. apply in_app_iff in I as [I|I]; [vm_compute in I; intuition discriminate|].
  apply in_app_iff in I as [I|I]; [exact (range_no_nl _ _ I)|].
  apply in_app_iff in I as [I|I]; [vm_compute in I; intuition discriminate|].
  apply in_app_iff in I as [I|I]; [exact (range_no_nl _ _ I)|vm_compute in I; intuition discriminate].
Qed.
Lemma hunks_no_nl : forall hs, Forall (fun h => Forall (fun c => ended (snd c)) (h_changes h)) hs ->
  Forall (fun l => ~ In c_nl l) (flat_map hunk_lines hs).
Proof.
  induction 1 as [|h hs H _ IH]; [constructor|]. cbn [flat_map]. apply Forall_app. split; [|exact IH]. constructor; [apply header_no_nl|].
  apply Forall_map. eapply Forall_impl; [|exact H]. intros [t v] (l & E & N). cbn [snd] in E. subst v. unfold change_line. cbn [fst snd]. rewrite bare_line.
  intros [I|I]; [destruct t; discriminate|auto].
Qed.
