(** Proofs about [escape_preserving]: text that keeps the escapes and
    entities of its source. *)
From Coq Require Import Bool Arith NArith Lia ZifyBool ZifyNat ZifyN String List.
From Verif Require Import Base BaseFacts EscapeModel SpecText InlineModel.
Import ListNotations.

(** ** The reader *)
Lemma skipn_app_len : forall A (a b : list A), skipn (List.length a) (a ++ b) = b.
Proof. intros A a b. rewrite skipn_app, skipn_all, Nat.sub_diag. reflexivity. Qed.
Lemma take_while_skip : forall p s, s = take_while p s ++ skipn (List.length (take_while p s)) s.
Proof.
  intros p s. induction s as [|c s IH]; [reflexivity|]. cbn [take_while].
  destruct (p c); [|reflexivity]. cbn [List.length skipn app]. f_equal. exact IH.
Qed.
Lemma take_while_app_stop : forall p w c r,
  forallb p w = true -> p c = false -> take_while p (w ++ c :: r) = w.
Proof.
  intros p w c r. induction w as [|x w IH]; cbn [app take_while forallb].
  - intros _ ->. reflexivity.
  - intros H F. apply andb_true_iff in H. destruct H as [-> H]. rewrite (IH H F). reflexivity.
Qed.

Lemma numeric_some : forall prefix base digit most s sp m,
  numeric prefix base digit most s = Some (sp, m) ->
  exists ds r, s = ds ++ c_semi :: r /\ sp = prefix ++ ds ++ [c_semi]
    /\ 1 <= List.length ds <= most /\ forallb (is_digit_of digit) ds = true
    /\ m = [char_of_number (number_of base digit ds)].
Proof.
  intros prefix base digit most s sp m. unfold numeric.
  pose proof (take_while_skip (is_digit_of digit) s) as E.
  set (ds := take_while (is_digit_of digit) s) in *.
  destruct ((1 <=? List.length ds) && (List.length ds <=? most)) eqn:L; [|discriminate].
  destruct (skipn (List.length ds) s) as [|e r]; [discriminate|].
  destruct (ceq_spec e c_semi) as [->|]; [|discriminate].
  intro H. injection H as <- <-. exists ds, r. repeat split; auto; try lia.
  apply forallb_Forall. apply take_while_forall.
Qed.

Section Read.
Variable ENT : str -> option str.

Lemma reference_after_prefix : forall r sp m,
  reference_after ENT r = Some (sp, m) -> exists r', r = sp ++ r'.
Proof.
  intros [|h r] sp m; [discriminate|]. unfold reference_after.
  destruct (ceq_spec h c_hash) as [->|].
  - destruct r as [|x r]; [discriminate|].
    destruct (ceq x 120%N || ceq x 88%N); intro H; apply numeric_some in H;
      destruct H as (ds & q & E & -> & _ & _ & _).
    + subst r. exists q. cbn [app]. rewrite <- app_assoc. reflexivity.
    + exists q. rewrite E. cbn [app]. rewrite <- app_assoc. reflexivity.
  - unfold named. pose proof (take_while_skip is_ascii_alnum (h :: r)) as E.
    set (w := take_while is_ascii_alnum (h :: r)) in *.
    destruct (skipn (List.length w) (h :: r)) as [|e q]; [discriminate|].
    destruct (ceq_spec e c_semi) as [->|]; [|discriminate].
    destruct (ENT w); [|discriminate]. intro H. injection H as <- <-.
    exists q. rewrite E. rewrite <- app_assoc. reflexivity.
Qed.

Lemma first_piece_prefix : forall c r, exists s',
  c :: r = spelling (first_piece ENT c r) ++ s' /\ 1 <= List.length (spelling (first_piece ENT c r)).
Proof.
  intros c r. unfold first_piece.
  destruct (ceq_spec c c_bs) as [->|].
  - destruct r as [|d r]; [exists []; cbn; auto|].
    destruct (is_ascii_punct d); [exists r|exists (d :: r)]; cbn; auto.
  - destruct (ceq_spec c c_amp) as [->|]; [|exists r; cbn; auto].
    destruct (reference_after ENT r) as [[sp m]|] eqn:R; [|exists r; cbn; auto].
    apply reference_after_prefix in R. destruct R as [r' ->]. exists r'. cbn. split; [reflexivity|lia].
Qed.

Lemma pieces_fuel_enough : forall n m s, List.length s <= n -> List.length s <= m ->
  pieces_fuel ENT n s = pieces_fuel ENT m s.
Proof.
  induction n as [|n IH]; intros m s Hn Hm.
  - destruct s; [destruct m; reflexivity|cbn in Hn; lia].
  - destruct s as [|c r]; [destruct m; reflexivity|]. destruct m as [|m]; [cbn in Hm; lia|].
    cbn [pieces_fuel]. f_equal.
    destruct (first_piece_prefix c r) as (s' & E & L). rewrite E.
    rewrite skipn_app_len. apply (f_equal (@List.length char)) in E.
    rewrite app_length in E. cbn [List.length] in *. apply IH; lia.
Qed.

Lemma pieces_cons : forall c r s',
  c :: r = spelling (first_piece ENT c r) ++ s' ->
  pieces ENT (c :: r) = first_piece ENT c r :: pieces ENT s'.
Proof.
  intros c r s' E. unfold pieces. cbn [List.length pieces_fuel]. f_equal.
  rewrite E, skipn_app_len. apply pieces_fuel_enough; [|auto].
  destruct (first_piece_prefix c r) as (s2 & E2 & L).
  apply (f_equal (@List.length char)) in E. rewrite app_length in E. cbn in E. lia.
Qed.

Lemma pieces_plain : forall c r, c <> c_bs -> c <> c_amp -> pieces ENT (c :: r) = Plain c :: pieces ENT r.
Proof.
  intros c r N1 N2. assert (F : first_piece ENT c r = Plain c).
  { unfold first_piece. destruct (ceq_spec c c_bs); [contradiction|].
    destruct (ceq_spec c c_amp); [contradiction|reflexivity]. }
  rewrite (pieces_cons c r r); rewrite F; reflexivity.
Qed.
Lemma pieces_escaped : forall d r, is_ascii_punct d = true ->
  pieces ENT (c_bs :: d :: r) = Escaped d :: pieces ENT r.
Proof.
  intros d r P. assert (F : first_piece ENT c_bs (d :: r) = Escaped d).
  { unfold first_piece. rewrite ceq_refl, P. reflexivity. }
  rewrite (pieces_cons c_bs (d :: r) r); rewrite F; reflexivity.
Qed.
Lemma pieces_amp : forall r, reference_after ENT r = None ->
  pieces ENT (c_amp :: r) = Plain c_amp :: pieces ENT r.
Proof.
  intros r R. assert (F : first_piece ENT c_amp r = Plain c_amp).
  { unfold first_piece. rewrite R. reflexivity. }
  rewrite (pieces_cons c_amp r r); rewrite F; reflexivity.
Qed.
Lemma pieces_reference : forall sp m r, reference_after ENT (sp ++ r) = Some (sp, m) ->
  pieces ENT (c_amp :: sp ++ r) = Reference (c_amp :: sp) m :: pieces ENT r.
Proof.
  intros sp m r R. assert (F : first_piece ENT c_amp (sp ++ r) = Reference (c_amp :: sp) m).
  { unfold first_piece. rewrite R. reflexivity. }
  rewrite (pieces_cons c_amp (sp ++ r) r); rewrite F; reflexivity.
Qed.

(** ** The parser of entities in the code *)
Definition entity_char (c : char) : bool := is_ascii_alnum c || ceq c c_hash.
Lemma entity_char_semi : entity_char c_semi = false. Proof. reflexivity. Qed.

Lemma entity_loop_some : forall n acc s e d, entity_loop ENT n acc s = Some (e, d) ->
  exists w r, s = w ++ c_semi :: r /\ forallb entity_char w = true
    /\ e = rev acc ++ w ++ [c_semi] /\ decode_html_entity ENT e = Some d.
Proof.
  induction n as [|n IH]; intros acc s e d; [discriminate|]. cbn [entity_loop].
  destruct s as [|c r]; [discriminate|]. destruct (ceq_spec c c_semi) as [->|].
  - destruct (decode_html_entity ENT (rev (c_semi :: acc))) as [x|] eqn:D; [|discriminate].
    intro H. injection H as <- <-. exists [], r. repeat split. exact D.
  - destruct (negb (is_ascii_alnum c) && negb (ceq c c_hash)) eqn:K; [discriminate|].
    intro H. apply IH in H. destruct H as (w & q & -> & W & -> & D). exists (c :: w), q.
    repeat split; auto; [|cbn [rev]; rewrite <- !app_assoc; reflexivity].
    cbn [forallb]. rewrite W. unfold entity_char.
    destruct (is_ascii_alnum c), (ceq c c_hash); try reflexivity; discriminate.
Qed.
Lemma entity_loop_run : forall w n acc r d, forallb entity_char w = true -> List.length w < n ->
  decode_html_entity ENT (rev acc ++ w ++ [c_semi]) = Some d ->
  entity_loop ENT n acc (w ++ c_semi :: r) = Some (rev acc ++ w ++ [c_semi], d).
Proof.
  induction w as [|c w IH]; intros n acc r d W L D; destruct n as [|n]; cbn in L; try lia; cbn [app entity_loop].
  - rewrite ceq_refl. cbn [rev]. cbn [app] in D. rewrite D. reflexivity.
  - cbn [forallb] in W. apply andb_true_iff in W. destruct W as [C W].
    destruct (ceq_spec c c_semi) as [->|]; [rewrite entity_char_semi in C; discriminate|].
    assert (K : negb (is_ascii_alnum c) && negb (ceq c c_hash) = false).
    { unfold entity_char in C. destruct (is_ascii_alnum c), (ceq c c_hash); try reflexivity; discriminate. }
    rewrite K. rewrite IH with (d := d); auto; [|lia|].
    + cbn [rev]. rewrite <- !app_assoc. reflexivity.
    + cbn [rev]. rewrite <- !app_assoc. exact D.
Qed.

Lemma drop_end_semi : forall w, (forall a c, w = a ++ [c] -> c <> c_semi) ->
  drop_while_end (ceq c_semi) (w ++ [c_semi]) = w.
Proof.
  intros w H. unfold drop_while_end. rewrite rev_app_distr. cbn [rev app drop_while].
  rewrite ceq_refl. destruct (rev w) as [|c a] eqn:R.
  - apply (f_equal (@rev char)) in R. rewrite rev_involutive in R. subst. reflexivity.
  - cbn [drop_while]. destruct (ceq_spec c_semi c) as [<-|].
    + exfalso. apply (H (rev a) c_semi); [|reflexivity].
      apply (f_equal (@rev char)) in R. rewrite rev_involutive in R. exact R.
    + rewrite <- R. apply rev_involutive.
Qed.
Lemma entity_chars_last : forall w, forallb entity_char w = true -> forall a c, w = a ++ [c] -> c <> c_semi.
Proof.
  intros w W a c -> ->. rewrite forallb_app in W. apply andb_true_iff in W. destruct W as [_ W].
  cbn in W. discriminate.
Qed.

(** The table of names holds names. *)
Variable ENT_names : forall n t, ENT n = Some t -> n <> [] /\ forallb is_ascii_alnum n = true.

Lemma alnum_semi : is_ascii_alnum c_semi = false. Proof. reflexivity. Qed.

Lemma not_entity : forall r, reference_after ENT r = None -> (forall q, r <> c_hash :: q) ->
  try_parse_html_entity ENT (c_amp :: r) = None.
Proof.
  intros r R H. unfold try_parse_html_entity. rewrite ceq_refl.
  destruct (entity_loop ENT 11 [c_amp] r) as [[e d]|] eqn:L; [|reflexivity]. exfalso.
  apply entity_loop_some in L. destruct L as (w & q & -> & W & -> & D).
  unfold decode_html_entity in D.
  assert (S0 : starts_with (lit "&#") (rev [c_amp] ++ w ++ [c_semi]) = false).
  { destruct (starts_with (lit "&#") (rev [c_amp] ++ w ++ [c_semi])) eqn:S0; [|reflexivity].
    exfalso. apply starts_with_true in S0. destruct S0 as [z Z]. destruct w as [|x w]; [discriminate|].
    injection Z as -> _. exact (H _ eq_refl). }
  rewrite S0 in D.
  assert (N0 : drop_while_end (ceq c_semi) (drop_while (ceq c_amp) (rev [c_amp] ++ w ++ [c_semi])) = w).
  { cbn [rev app drop_while]. rewrite ceq_refl.
    replace (drop_while (ceq c_amp) (w ++ [c_semi])) with (w ++ [c_semi]).
    - apply drop_end_semi. apply entity_chars_last. exact W.
    - destruct w as [|x w]; [reflexivity|]. cbn [app drop_while forallb] in *.
      destruct (ceq_spec c_amp x) as [<-|]; [discriminate W|reflexivity]. }
  rewrite N0 in D. destruct (ENT w) as [t|] eqn:EW; [|discriminate].
  destruct (ENT_names w t EW) as [NE AL].
  destruct w as [|x w]; [contradiction|].
  unfold reference_after in R. cbn [app] in R.
  destruct (ceq_spec x c_hash) as [->|]; [exact (H _ eq_refl)|].
  unfold named in R. change (x :: w ++ c_semi :: q) with ((x :: w) ++ c_semi :: q) in R.
  rewrite (take_while_app_stop _ (x :: w) c_semi q AL alnum_semi) in R.
  rewrite skipn_app_len in R. cbn iota in R. rewrite ceq_refl, EW in R. discriminate.
Qed.

(** Numbers. *)
Lemma digits_val_is : forall s acc, forallb (is_digit_of decimal) s = true ->
  digits_val acc s = Some (fold_left (fun v c => match decimal c with Some d => v * 10 + d | None => v end)%N s acc).
Proof.
  induction s as [|c s IH]; intros acc F; [reflexivity|]. cbn [forallb] in F. apply andb_true_iff in F.
  destruct F as [C F]. cbn [digits_val fold_left]. unfold is_digit_of, decimal in C. unfold is_ascii_digit, decimal.
  destruct ((48 <=? c) && (c <=? 57))%N; [|discriminate]. apply IH. exact F.
Qed.
Lemma hex_digit_is : forall c, hex_digit c = hexadecimal c.
Proof.
  intro c. unfold hex_digit, hexadecimal, is_ascii_digit.
  destruct ((48 <=? c) && (c <=? 57))%N; [reflexivity|].
  destruct ((65 <=? c) && (c <=? 70))%N eqn:A; [f_equal; lia|].
  destruct ((97 <=? c) && (c <=? 102))%N eqn:B; [f_equal; lia|reflexivity].
Qed.
Lemma hex_val_is : forall s acc, forallb (is_digit_of hexadecimal) s = true ->
  hex_val acc s = Some (fold_left (fun v c => match hexadecimal c with Some d => v * 16 + d | None => v end)%N s acc).
Proof.
  induction s as [|c s IH]; intros acc F; [reflexivity|]. cbn [forallb] in F. apply andb_true_iff in F.
  destruct F as [C F]. cbn [hex_val fold_left]. rewrite hex_digit_is. unfold is_digit_of in C.
  destruct (hexadecimal c); [|discriminate]. apply IH. exact F.
Qed.
Lemma fold_bound : forall (base : N) (digit : char -> option N) (s : str) acc,
  (0 < base)%N -> (forall c d, digit c = Some d -> d < base)%N ->
  (fold_left (fun v c => match digit c with Some d => v * base + d | None => v end) s acc
   < (acc + 1) * base ^ N.of_nat (List.length s))%N.
Proof.
  intros base digit s acc B D. revert acc. induction s as [|c s IH]; intro acc.
  - cbn. lia.
  - cbn [fold_left List.length]. rewrite Nat2N.inj_succ, N.pow_succ_r'.
    destruct (digit c) as [d|] eqn:E.
    + eapply N.lt_le_trans; [apply IH|]. specialize (D c d E).
      rewrite (N.mul_assoc _ base). apply N.mul_le_mono_r. nia.
    + eapply N.lt_le_trans; [apply IH|]. rewrite N.mul_assoc. apply N.mul_le_mono_r. nia.
Qed.
Lemma decimal_small : forall c d, decimal c = Some d -> (d < 10)%N.
Proof. intros c d. unfold decimal. destruct ((48 <=? c) && (c <=? 57))%N eqn:E; intro H; [injection H as <-; lia|discriminate]. Qed.
Lemma hexadecimal_small : forall c d, hexadecimal c = Some d -> (d < 16)%N.
Proof.
  intros c d. unfold hexadecimal. destruct ((48 <=? c) && (c <=? 57))%N eqn:E; [intro H; injection H as <-; lia|].
  destruct ((65 <=? c) && (c <=? 70))%N eqn:E2; [intro H; injection H as <-; lia|].
  destruct ((97 <=? c) && (c <=? 102))%N eqn:E3; [intro H; injection H as <-; lia|discriminate].
Qed.
Lemma char_of_number_is : forall v d, char_of_number v = d -> d <> c_fffd -> char_from_u32 v = Some d.
Proof.
  intros v d. unfold char_of_number, char_from_u32. intros <- N.
  destruct ((0 <? v) && (v <? 55296) || (57343 <? v) && (v <? 1114112))%N eqn:E; [|contradiction].
  destruct ((v <? 55296) || (57343 <? v) && (v <=? 1114111))%N eqn:E2; [reflexivity|lia].
Qed.

Lemma digit_alnum : forall c, is_digit_of decimal c = true -> is_ascii_alnum c = true.
Proof. intro c. unfold is_digit_of, decimal, is_ascii_alnum, is_ascii_digit. destruct ((48 <=? c) && (c <=? 57))%N; [reflexivity|discriminate]. Qed.
Lemma hexdigit_alnum : forall c, is_digit_of hexadecimal c = true -> is_ascii_alnum c = true.
Proof.
  intro c. unfold is_digit_of, hexadecimal, is_ascii_alnum, is_ascii_digit, is_ascii_upper, is_ascii_lower.
  destruct ((48 <=? c) && (c <=? 57))%N; [reflexivity|].
  destruct ((65 <=? c) && (c <=? 70))%N eqn:A; [intros _; lia|].
  destruct ((97 <=? c) && (c <=? 102))%N eqn:B; [intros _; lia|discriminate].
Qed.
Lemma forallb_imp : forall (p q : char -> bool) s, (forall c, p c = true -> q c = true) ->
  forallb p s = true -> forallb q s = true.
Proof.
  intros p q s H. induction s as [|c s IH]; [reflexivity|]. cbn. intro F. apply andb_true_iff in F.
  destruct F as [C F]. rewrite (H c C), (IH F). reflexivity.
Qed.
Lemma alnum_entity : forall c, is_ascii_alnum c = true -> entity_char c = true.
Proof. intros c H. unfold entity_char. rewrite H. reflexivity. Qed.

Lemma trim_matches_once : forall (x : char) (r : str),
  x <> c_amp -> trim_start_matches (lit "&#") ((lit "&#") ++ x :: r) = x :: r.
Proof.
  intros x r N. unfold trim_start_matches. change (lit "&#") with [c_amp; c_hash].
  cbn [app List.length trim_start_matches_fuel strip_prefix]. rewrite !ceq_refl.
  destruct (ceq_spec c_amp x) as [<-|]; [contradiction|]. reflexivity.
Qed.

Lemma decode_numeric_dec : forall ds d, 1 <= List.length ds <= 7 ->
  forallb (is_digit_of decimal) ds = true -> char_of_number (number_of 10 decimal ds) = d -> d <> c_fffd ->
  decode_html_entity ENT ([c_amp] ++ (c_hash :: ds) ++ [c_semi]) = Some d.
Proof.
  intros ds d L F E N. unfold decode_html_entity.
  change ([c_amp] ++ (c_hash :: ds) ++ [c_semi]) with (lit "&#" ++ ds ++ [c_semi]).
  replace (starts_with (lit "&#") (lit "&#" ++ ds ++ [c_semi])) with true
    by (symmetry; apply starts_with_true; eauto).
  destruct ds as [|x ds]; [cbn in L; lia|].
  assert (X : is_digit_of decimal x = true) by (cbn in F; apply andb_true_iff in F; tauto).
  assert (XN : (48 <= x <= 57)%N).
  { unfold is_digit_of, decimal in X. destruct ((48 <=? x) && (x <=? 57))%N eqn:Q; [lia|discriminate]. }
  cbn [app]. change (c_amp :: c_hash :: x :: ds ++ [c_semi]) with (lit "&#" ++ x :: (ds ++ [c_semi])).
  change (lit "&#" ++ x :: ds ++ [c_semi]) with ((lit "&#") ++ x :: (ds ++ [c_semi])).
  rewrite trim_matches_once by (unfold c_amp; lia).
  change (x :: ds ++ [c_semi]) with ((x :: ds) ++ [c_semi]).
  rewrite drop_end_semi.
  2:{ apply entity_chars_last. revert F. apply forallb_imp. intros c H. apply alnum_entity, digit_alnum, H. }
  replace (strip_prefix (lit "x") (x :: ds)) with (@None str).
  2:{ destruct (strip_prefix (lit "x") (x :: ds)) as [z|] eqn:Z; [|reflexivity].
      apply strip_prefix_some in Z. injection Z as -> _. lia. }
  replace (strip_prefix (lit "X") (x :: ds)) with (@None str).
  2:{ destruct (strip_prefix (lit "X") (x :: ds)) as [z|] eqn:Z; [|reflexivity].
      apply strip_prefix_some in Z. injection Z as -> _. lia. }
  unfold parse_uint. destruct (ceq_spec x c_plus) as [->|]; [unfold c_plus in XN; lia|].
  rewrite digits_val_is by exact F.
  pose proof (fold_bound 10 decimal (x :: ds) 0 ltac:(lia) decimal_small) as BD.
  unfold number_of in E. set (v := fold_left _ (x :: ds) 0%N) in *.
  assert (VB : (v <= u32_max)%N).
  { eapply N.le_trans; [apply N.lt_le_incl; exact BD|].
    eapply N.le_trans; [apply N.mul_le_mono_l; apply (N.pow_le_mono_r 10 _ 7); lia|]. vm_compute. discriminate. }
  destruct (v <=? u32_max)%N eqn:Q; [|lia]. apply char_of_number_is; assumption.
Qed.
Lemma decode_numeric_hex : forall h ds d, (h = 120%N \/ h = 88%N) -> 1 <= List.length ds <= 6 ->
  forallb (is_digit_of hexadecimal) ds = true -> char_of_number (number_of 16 hexadecimal ds) = d -> d <> c_fffd ->
  decode_html_entity ENT ([c_amp] ++ (c_hash :: h :: ds) ++ [c_semi]) = Some d.
Proof.
  intros h ds d Hh L F E N. unfold decode_html_entity.
  replace (starts_with (lit "&#") ([c_amp] ++ (c_hash :: h :: ds) ++ [c_semi])) with true
    by (symmetry; apply starts_with_true; exists (h :: ds ++ [c_semi]); reflexivity).
  change ([c_amp] ++ (c_hash :: h :: ds) ++ [c_semi]) with ((lit "&#") ++ h :: (ds ++ [c_semi])).
  rewrite trim_matches_once by (destruct Hh as [->| ->]; discriminate).
  change (h :: ds ++ [c_semi]) with ((h :: ds) ++ [c_semi]).
  assert (FE : forallb entity_char ds = true).
  { revert F. apply forallb_imp. intros c H. apply alnum_entity, hexdigit_alnum, H. }
  rewrite drop_end_semi.
  2:{ apply entity_chars_last. cbn [forallb]. rewrite FE. destruct Hh as [->| ->]; reflexivity. }
  replace (match strip_prefix (lit "x") (h :: ds) with Some h0 => Some h0 | None => strip_prefix (lit "X") (h :: ds) end)
    with (Some ds) by (destruct Hh as [->| ->]; reflexivity).
  assert (NE : ds <> []) by (intros ->; cbn in L; lia).
  unfold parse_hex.
  destruct ds as [|c r]; [contradiction|].
  destruct (ceq_spec c c_plus) as [->|]; [discriminate F|]. rewrite hex_val_is by exact F.
  pose proof (fold_bound 16 hexadecimal (c :: r) 0 ltac:(lia) hexadecimal_small) as BD.
  unfold number_of in E. set (v := fold_left _ (c :: r) 0%N) in *.
  assert (VB : (v <= u32_max)%N).
  { eapply N.le_trans; [apply N.lt_le_incl; exact BD|].
    eapply N.le_trans; [apply N.mul_le_mono_l; apply (N.pow_le_mono_r 16 _ 6); lia|]. vm_compute. discriminate. }
  destruct (v <=? u32_max)%N eqn:Q; [|lia]. apply char_of_number_is; assumption.
Qed.

Lemma is_entity : forall sp d r, reference_after ENT (sp ++ r) = Some (sp, [d]) -> d <> c_fffd ->
  List.length sp <= 11 ->
  try_parse_html_entity ENT (c_amp :: sp ++ r) = Some (c_amp :: sp, d).
Proof.
  intros sp d r R N L. unfold try_parse_html_entity. rewrite ceq_refl.
  assert (K : exists w, sp = w ++ [c_semi] /\ forallb entity_char w = true
    /\ decode_html_entity ENT ([c_amp] ++ w ++ [c_semi]) = Some d).
  { unfold reference_after in R. destruct (sp ++ r) as [|h q] eqn:SR; [discriminate|].
    destruct (ceq_spec h c_hash) as [->|NH].
    - destruct q as [|x q']; [discriminate|].
      destruct (ceq x 120%N || ceq x 88%N) eqn:HX.
      + apply numeric_some in R. destruct R as (ds & r2 & _ & -> & LD & F & M).
        injection M as M. exists (c_hash :: x :: ds). split; [cbn [app]; reflexivity|].
        assert (HX' : x = 120%N \/ x = 88%N).
        { apply orb_true_iff in HX. destruct HX as [HX|HX]; apply ceq_true in HX; auto. }
        split.
        * cbn [forallb]. rewrite (forallb_imp _ entity_char ds (fun c H => alnum_entity c (hexdigit_alnum c H)) F).
          destruct HX' as [->| ->]; reflexivity.
        * apply decode_numeric_hex; auto.
      + apply numeric_some in R. destruct R as (ds & r2 & _ & -> & LD & F & M).
        injection M as M. exists (c_hash :: ds). split; [cbn [app]; reflexivity|]. split.
        * cbn [forallb]. rewrite (forallb_imp _ entity_char ds (fun c H => alnum_entity c (digit_alnum c H)) F).
          reflexivity.
        * apply decode_numeric_dec; auto.
    - unfold named in R. pose proof (take_while_forall is_ascii_alnum (h :: q)) as FA.
      set (w := take_while is_ascii_alnum (h :: q)) in *.
      destruct (skipn (List.length w) (h :: q)) as [|e q']; [discriminate|].
      destruct (ceq_spec e c_semi) as [->|]; [|discriminate].
      destruct (ENT w) as [t|] eqn:EW; [|discriminate]. injection R as <- ->.
      destruct (ENT_names w _ EW) as [NE AL]. exists w. split; [reflexivity|].
      assert (FE : forallb entity_char w = true) by (revert AL; apply forallb_imp; apply alnum_entity).
      split; [exact FE|].
      unfold decode_html_entity. destruct w as [|x w]; [contradiction|].
      assert (XA : is_ascii_alnum x = true) by (cbn in AL; apply andb_true_iff in AL; tauto).
      assert (S0 : starts_with (lit "&#") ([c_amp] ++ (x :: w) ++ [c_semi]) = false).
      { destruct (starts_with (lit "&#") ([c_amp] ++ (x :: w) ++ [c_semi])) eqn:S0; [|reflexivity].
        apply starts_with_true in S0. destruct S0 as [z Z]. injection Z as -> _. discriminate XA. }
      rewrite S0. cbn [app drop_while]. rewrite ceq_refl.
      destruct (ceq_spec c_amp x) as [<-|]; [discriminate XA|].
      change (x :: w ++ [c_semi]) with ((x :: w) ++ [c_semi]).
      rewrite drop_end_semi by (apply entity_chars_last; exact FE). rewrite EW. reflexivity. }
  destruct K as (w & -> & W & D). rewrite app_length in L. cbn in L.
  rewrite <- app_assoc. cbn [app].
  rewrite (entity_loop_run w 11 [c_amp] r d); auto; lia.
Qed.

(** ** What is written *)
Definition rewritten (p : piece) : str :=
  match p with
  | Plain c => if special c then [c_bs; c] else [c]
  | Escaped c => if special c then [c_bs; c] else [c_bs; c_bs; c]
  | Reference s _ => s
  end.

Lemma escape1_is : forall c, escape1 c = if special c then [c_bs; c] else [c].
Proof.
  intro c. unfold escape1, escape_text, special. cbn [escape_text_from is_nil].
  destruct (ceq c c_star) eqn:A; cbn [orb]; [reflexivity|].
  destruct (ceq c c_us) eqn:B; cbn [orb]; [reflexivity|].
  destruct (ceq_spec c c_lbr) as [->|]; [reflexivity|].
  destruct (ceq_spec c c_rbr) as [->|]; [reflexivity|].
  destruct (ceq c c_bs) eqn:D, (ceq c c_bt) eqn:E; reflexivity.
Qed.
Lemma special_ascii : forall c, special c = true -> utf8_len c = 1 /\ is_ascii_punct c = true.
Proof.
  intros c H. unfold special in H. rewrite !orb_true_iff in H.
  destruct H as [[[H|H]|H]|H]; apply ceq_true in H; subst; split; reflexivity.
Qed.
Lemma needs_escaping_is : forall c, needs_escaping c = special c.
Proof.
  intro c. unfold needs_escaping. rewrite escape1_is. destruct (special c) eqn:S0.
  - unfold byte_len. cbn [fold_right]. destruct (special_ascii c S0) as [-> _]. reflexivity.
  - destruct (ceq_spec c c_bs) as [->|N]; [discriminate|].
    unfold starts_with. cbn [strip_prefix]. destruct (ceq_spec c_bs c) as [<-|]; [contradiction|].
    apply andb_false_r.
Qed.

Lemma escape_preserving_nil : forall t text, escape_preserving ENT (t :: text) [] = escape1 t ++ escape_preserving ENT text [].
Proof. reflexivity. Qed.

Lemma ep_plain : forall c text r, c <> c_bs -> c <> c_amp ->
  escape_preserving ENT (c :: text) (c :: r) = escape1 c ++ escape_preserving ENT text r.
Proof.
  intros c text r N1 N2. cbn [escape_preserving]. rewrite ceq_refl.
  destruct (ceq_spec c c_bs); [contradiction|]. destruct (ceq_spec c c_amp); [contradiction|].
  destruct r; reflexivity.
Qed.
Lemma ep_amp : forall text r, try_parse_html_entity ENT (c_amp :: r) = None ->
  escape_preserving ENT (c_amp :: text) (c_amp :: r) = escape1 c_amp ++ escape_preserving ENT text r.
Proof.
  intros text r T. cbn [escape_preserving]. rewrite ceq_refl, T. destruct r; reflexivity.
Qed.
Lemma ep_reference : forall d text sp r, try_parse_html_entity ENT (c_amp :: sp ++ r) = Some (c_amp :: sp, d) ->
  escape_preserving ENT (d :: text) (c_amp :: sp ++ r) = (c_amp :: sp) ++ escape_preserving ENT text r.
Proof.
  intros d text sp r T. cbn [escape_preserving]. rewrite ceq_refl, T, ceq_refl.
  cbn [List.length skipn]. rewrite skipn_app_len. destruct (sp ++ r); reflexivity.
Qed.
Lemma ep_escaped : forall d text r,
  escape_preserving ENT (d :: text) (c_bs :: d :: r)
  = (if special d then [c_bs; d] else [c_bs; c_bs; d]) ++ escape_preserving ENT text r.
Proof.
  intros d text r. cbn [escape_preserving]. rewrite ceq_refl.
  destruct (ceq_spec d c_bs) as [->|]; [reflexivity|].
  rewrite ceq_refl, needs_escaping_is. destruct (special d); reflexivity.
Qed.
Lemma ep_backslash : forall text r, (forall d q, r = d :: q -> is_ascii_punct d = false) ->
  escape_preserving ENT (c_bs :: text) (c_bs :: r) = [c_bs; c_bs] ++ escape_preserving ENT text r.
Proof.
  intros text r H. destruct r as [|e r]; [reflexivity|]. cbn [escape_preserving]. rewrite ceq_refl.
  destruct (ceq_spec e c_bs) as [->|]; [specialize (H _ _ eq_refl); discriminate|reflexivity].
Qed.

Lemma read_text_cons : forall s p ps, pieces ENT s = p :: ps -> read_text ENT s = meaning p ++ flat_map meaning ps.
Proof. intros s p ps E. unfold read_text. rewrite E. reflexivity. Qed.

Lemma no_loose_tail : forall p ps, no_loose_number (p :: ps) -> no_loose_number ps.
Proof. intros [c|c|s m] ps H; cbn in H; [destruct ps as [|[]]; tauto|exact H|exact H]. Qed.

Lemma kept : forall n source, List.length source <= n ->
  Forall ordinary (pieces ENT source) -> no_loose_number (pieces ENT source) ->
  escape_preserving ENT (read_text ENT source) source = flat_map rewritten (pieces ENT source).
Proof.
  induction n as [|n IH]; intros source L O H.
  - destruct source; [reflexivity|cbn in L; lia].
  - destruct source as [|c r]; [reflexivity|].
    destruct (ceq_spec c c_bs) as [->|N1].
    + destruct r as [|d r].
      * reflexivity.
      * destruct (is_ascii_punct d) eqn:P.
        -- pose proof (pieces_escaped d r P) as E. rewrite (read_text_cons _ _ _ E). rewrite E in *. 
           cbn [meaning app flat_map rewritten].
           change (flat_map meaning (pieces ENT r)) with (read_text ENT r).
           rewrite ep_escaped, IH; [reflexivity|cbn in L; lia|now inversion O|exact (no_loose_tail _ _ H)].
        -- assert (F : first_piece ENT c_bs (d :: r) = Plain c_bs).
           { unfold first_piece. rewrite ceq_refl, P. reflexivity. }
           assert (E : pieces ENT (c_bs :: d :: r) = Plain c_bs :: pieces ENT (d :: r)).
           { rewrite (pieces_cons c_bs (d :: r) (d :: r)); rewrite F; reflexivity. }
           rewrite (read_text_cons _ _ _ E). rewrite E in *.  cbn [meaning app].
           change (flat_map meaning (pieces ENT (d :: r))) with (read_text ENT (d :: r)).
           rewrite ep_backslash by (intros ? ? Q; injection Q as <- <-; exact P).
           rewrite IH; [reflexivity|cbn in *; lia|now inversion O|exact (no_loose_tail _ _ H)].
    + destruct (ceq_spec c c_amp) as [->|N2].
      * destruct (reference_after ENT r) as [[sp m]|] eqn:R.
        -- destruct (reference_after_prefix _ _ _ R) as [r' ->].
           pose proof (pieces_reference _ _ _ R) as E. rewrite (read_text_cons _ _ _ E). rewrite E in *. 
           pose proof (Forall_inv O) as [LS (d & -> & ND)]. pose proof (Forall_inv_tail O) as O'. cbn [List.length] in LS.
           cbn [meaning app flat_map rewritten].
           change (flat_map meaning (pieces ENT r')) with (read_text ENT r').
           rewrite ep_reference by (apply is_entity; [exact R|exact ND|lia]).
           rewrite IH; [reflexivity| |exact O'|exact (no_loose_tail _ _ H)].
           cbn [List.length] in L. rewrite app_length in L. lia.
        -- pose proof (pieces_amp _ R) as E. rewrite (read_text_cons _ _ _ E). rewrite E in *. 
           cbn [meaning app flat_map rewritten].
           change (flat_map meaning (pieces ENT r)) with (read_text ENT r).
           rewrite ep_amp.
           ++ rewrite IH; [rewrite escape1_is; reflexivity|cbn in L; lia|now inversion O|exact (no_loose_tail _ _ H)].
           ++ apply not_entity; [exact R|]. intros q ->. rewrite pieces_plain in H by discriminate.
              cbn in H. destruct H as [H _]. apply H. split; reflexivity.
      * pose proof (pieces_plain c r N1 N2) as E. rewrite (read_text_cons _ _ _ E). rewrite E in *. 
        cbn [meaning app flat_map rewritten].
        change (flat_map meaning (pieces ENT r)) with (read_text ENT r).
        rewrite ep_plain by assumption.
        rewrite IH; [rewrite escape1_is; reflexivity|cbn in L; lia|now inversion O|exact (no_loose_tail _ _ H)].
Qed.

(** ** Reading it back *)

(** The characters a reference consists of. *)
Definition ref_char (c : char) : bool := is_ascii_alnum c || ceq c c_hash || ceq c c_semi.
Definition head_run (s : str) : str := take_while ref_char s.

Lemma take_while_sub : forall (p : char -> bool) s, (forall c, p c = true -> ref_char c = true) ->
  take_while p (head_run s) = take_while p s.
Proof.
  intros p s H. unfold head_run. induction s as [|c s IH]; [reflexivity|]. cbn [take_while].
  destruct (p c) eqn:P.
  - rewrite (H c P). cbn [take_while]. rewrite P, IH. reflexivity.
  - destruct (ref_char c); [cbn [take_while]; rewrite P|]; reflexivity.
Qed.
Lemma skip_run_drop : forall p s, skipn (List.length (take_while p s)) s = drop_while p s.
Proof.
  intros p s. induction s as [|c s IH]; [reflexivity|]. cbn [take_while drop_while].
  destruct (p c); [exact IH|reflexivity].
Qed.
Lemma drop_while_sub : forall (p : char -> bool) s, (forall c, p c = true -> ref_char c = true) ->
  drop_while p (head_run s) = head_run (drop_while p s).
Proof.
  intros p s H. unfold head_run. induction s as [|c s IH]; [reflexivity|]. cbn [take_while drop_while].
  destruct (p c) eqn:P.
  - rewrite (H c P). cbn [drop_while]. rewrite P. exact IH.
  - cbn [take_while]. destruct (ref_char c); [cbn [drop_while]; rewrite P|]; reflexivity.
Qed.
Lemma semi_head : forall A s (x y : A),
  match s with e :: _ => if ceq e c_semi then x else y | [] => y end
  = match head_run s with e :: _ => if ceq e c_semi then x else y | [] => y end.
Proof.
  intros A [|e s] x y; [reflexivity|]. unfold head_run. cbn [take_while].
  destruct (ref_char e) eqn:R; [reflexivity|]. destruct (ceq_spec e c_semi) as [->|]; [discriminate R|reflexivity].
Qed.
Lemma numeric_head : forall prefix base (digit : char -> option N) most s,
  (forall c, is_digit_of digit c = true -> ref_char c = true) ->
  numeric prefix base digit most (head_run s) = numeric prefix base digit most s.
Proof.
  intros prefix base digit most s H. unfold numeric. rewrite take_while_sub by exact H.
  destruct ((1 <=? List.length (take_while (is_digit_of digit) s)) && (List.length (take_while (is_digit_of digit) s) <=? most));
    [|reflexivity].
  rewrite <- (take_while_sub (is_digit_of digit) s H) at 1. rewrite !skip_run_drop, drop_while_sub by exact H.
  symmetry. apply semi_head.
Qed.
Lemma alnum_ref : forall c, is_ascii_alnum c = true -> ref_char c = true.
Proof. intros c H. unfold ref_char. rewrite H. reflexivity. Qed.
Lemma named_head : forall s, named ENT (head_run s) = named ENT s.
Proof.
  intro s. unfold named.
  assert (K : skipn (List.length (take_while is_ascii_alnum (head_run s))) (head_run s)
              = head_run (skipn (List.length (take_while is_ascii_alnum s)) s)).
  { rewrite !skip_run_drop. apply drop_while_sub. exact alnum_ref. }
  rewrite K, (take_while_sub is_ascii_alnum s alnum_ref). symmetry. apply semi_head.
Qed.
Lemma reference_head : forall s, reference_after ENT s = reference_after ENT (head_run s).
Proof.
  intros [|h r]; [reflexivity|]. unfold head_run. cbn [take_while]. fold (head_run r).
  destruct (ref_char h) eqn:RH.
  - unfold reference_after. destruct (ceq h c_hash) eqn:HH.
    + destruct r as [|x r]; [reflexivity|]. unfold head_run. cbn [take_while]. fold (head_run r).
      destruct (ref_char x) eqn:RX.
      * destruct (ceq x 120%N || ceq x 88%N) eqn:X.
        -- symmetry. apply numeric_head. intros c H. apply alnum_ref, hexdigit_alnum, H.
        -- replace (x :: head_run r) with (head_run (x :: r)) by (unfold head_run; cbn [take_while]; rewrite RX; reflexivity).
           symmetry. apply numeric_head. intros c H. apply alnum_ref, digit_alnum, H.
      * destruct (ceq_spec x 120%N) as [->|]; [discriminate RX|].
        destruct (ceq_spec x 88%N) as [->|]; [discriminate RX|]. cbn [orb].
        unfold numeric. cbn [take_while].
        destruct (is_digit_of decimal x) eqn:D; [|reflexivity].
        rewrite (alnum_ref _ (digit_alnum _ D)) in RX. discriminate.
    + replace (h :: head_run r) with (head_run (h :: r)) by (unfold head_run; cbn [take_while]; rewrite RH; reflexivity).
      symmetry. apply named_head.
  - unfold reference_after at 1. destruct (ceq_spec h c_hash) as [->|]; [discriminate RH|].
    unfold named. cbn [take_while].
    destruct (is_ascii_alnum h) eqn:A; [rewrite (alnum_ref h A) in RH; discriminate|]. cbn [List.length skipn].
    destruct (ceq_spec h c_semi) as [->|]; [discriminate RH|reflexivity].
Qed.
Lemma head_run_app : forall w s, forallb ref_char w = true -> head_run (w ++ s) = w ++ head_run s.
Proof.
  intros w s. unfold head_run. induction w as [|c w IH]; [reflexivity|]. cbn [forallb app take_while]. intro H.
  apply andb_true_iff in H. destruct H as [-> H]. rewrite (IH H). reflexivity.
Qed.
Lemma reference_spelling : forall r sp m, reference_after ENT r = Some (sp, m) -> forallb ref_char sp = true.
Proof.
  intros r sp m. unfold reference_after. destruct r as [|h r]; [discriminate|].
  destruct (ceq_spec h c_hash) as [->|].
  - destruct r as [|x r]; [discriminate|].
    destruct (ceq x 120%N || ceq x 88%N) eqn:X; intro H; apply numeric_some in H;
      destruct H as (ds & q & _ & -> & _ & F & _); cbn [app forallb]; rewrite forallb_app.
    + rewrite (forallb_imp _ ref_char ds (fun c H => alnum_ref c (hexdigit_alnum c H)) F).
      apply orb_true_iff in X. destruct X as [X|X]; apply ceq_true in X; subst; reflexivity.
    + rewrite (forallb_imp _ ref_char ds (fun c H => alnum_ref c (digit_alnum c H)) F). reflexivity.
  - unfold named. pose proof (take_while_forall is_ascii_alnum (h :: r)) as F.
    destruct (skipn _ (h :: r)) as [|e q]; [discriminate|]. destruct (ceq e c_semi); [|discriminate].
    destruct (ENT _); [|discriminate]. intro H. injection H as <- <-. rewrite forallb_app.
    apply forallb_Forall in F. apply andb_true_iff. split; [|reflexivity].
    exact (forallb_imp _ ref_char _ alnum_ref F).
Qed.

Definition written (s : str) : str := flat_map rewritten (pieces ENT s).

(** The first piece of a text, by cases. *)
Inductive split_first (s : str) : Prop :=
| sf_nil : s = [] -> split_first s
| sf_escaped : forall d r, s = c_bs :: d :: r -> is_ascii_punct d = true ->
    pieces ENT s = Escaped d :: pieces ENT r -> split_first s
| sf_backslash : forall r, s = c_bs :: r -> pieces ENT s = Plain c_bs :: pieces ENT r -> split_first s
| sf_reference : forall sp m r, s = c_amp :: sp ++ r -> reference_after ENT (sp ++ r) = Some (sp, m) ->
    pieces ENT s = Reference (c_amp :: sp) m :: pieces ENT r -> split_first s
| sf_amp : forall r, s = c_amp :: r -> reference_after ENT r = None ->
    pieces ENT s = Plain c_amp :: pieces ENT r -> split_first s
| sf_plain : forall c r, s = c :: r -> c <> c_bs -> c <> c_amp ->
    pieces ENT s = Plain c :: pieces ENT r -> split_first s.
Lemma split_first_all : forall s, split_first s.
Proof.
  intros [|c r]; [apply sf_nil; reflexivity|].
  destruct (ceq_spec c c_bs) as [->|N1].
  - destruct r as [|d r]; [eapply sf_backslash; reflexivity|].
    destruct (is_ascii_punct d) eqn:P.
    + eapply sf_escaped; [reflexivity|exact P|apply pieces_escaped; exact P].
    + eapply sf_backslash; [reflexivity|].
      assert (F : first_piece ENT c_bs (d :: r) = Plain c_bs).
      { unfold first_piece. rewrite ceq_refl, P. reflexivity. }
      rewrite (pieces_cons c_bs (d :: r) (d :: r)); rewrite F; reflexivity.
  - destruct (ceq_spec c c_amp) as [->|N2].
    + destruct (reference_after ENT r) as [[sp m]|] eqn:R.
      * destruct (reference_after_prefix _ _ _ R) as [r' ->].
        eapply sf_reference; [reflexivity|exact R|apply pieces_reference; exact R].
      * eapply sf_amp; [reflexivity|exact R|apply pieces_amp; exact R].
    + eapply sf_plain; [reflexivity|exact N1|exact N2|apply pieces_plain; assumption].
Qed.

Lemma special_not_ref : forall c, special c = true -> ref_char c = false.
Proof.
  intros c H. unfold special in H. rewrite !orb_true_iff in H.
  destruct H as [[[H|H]|H]|H]; apply ceq_true in H; subst; reflexivity.
Qed.
Lemma head_run_bs : forall r, head_run (c_bs :: r) = []. Proof. reflexivity. Qed.
Lemma head_run_amp : forall r, head_run (c_amp :: r) = []. Proof. reflexivity. Qed.

Lemma written_head : forall n s, List.length s <= n -> head_run (written s) = head_run s.
Proof.
  induction n as [|n IH]; intros s L; [destruct s; [reflexivity|cbn in L; lia]|].
  destruct (split_first_all s) as [->|d r -> P E|r -> E|sp m r -> R E|r -> R E|c r -> N1 N2 E];
    [reflexivity| | | | |]; unfold written; rewrite E; cbn [flat_map rewritten].
  - destruct (special d); reflexivity.
  - reflexivity.
  - reflexivity.
  - reflexivity.
  - destruct (special c) eqn:S0.
    + cbn [app]. rewrite head_run_bs. unfold head_run. cbn [take_while]. rewrite (special_not_ref c S0). reflexivity.
    + cbn [app]. unfold head_run. cbn [take_while]. destruct (ref_char c); [|reflexivity]. f_equal.
      apply IH. cbn in L. lia.
Qed.

(** An escaped special character stays escaped, an unescaped one becomes so. *)
Definition inert (p : piece) : piece :=
  match p with Plain c => if special c then Escaped c else Plain c | _ => p end.

Lemma written_pieces : forall n s, List.length s <= n -> Forall special_escape (pieces ENT s) ->
  pieces ENT (written s) = map inert (pieces ENT s).
Proof.
  induction n as [|n IH]; intros s L G; [destruct s; [reflexivity|cbn in L; lia]|].
  destruct (split_first_all s) as [->|d r -> P E|r -> E|sp m r -> R E|r -> R E|c r -> N1 N2 E];
    [reflexivity| | | | |]; unfold written; rewrite E in G |- *; cbn [flat_map rewritten map inert];
    pose proof (Forall_inv G) as G1; pose proof (Forall_inv_tail G) as G2; fold (written r).
  - cbn in G1. rewrite G1. cbn [app]. rewrite pieces_escaped by exact P. f_equal. apply IH; [cbn in L; lia|exact G2].
  - cbn [special ceq]. change (special c_bs) with true. cbn [app].
    rewrite pieces_escaped by reflexivity. f_equal. apply IH; [cbn in L; lia|exact G2].
  - cbn [app]. cbn [List.length] in L. rewrite app_length in L. rewrite pieces_reference with (m := m).
    + f_equal. apply IH; [lia|exact G2].
    + rewrite reference_head in R |- *. pose proof (reference_spelling _ _ _ R) as RS.
      rewrite head_run_app in R |- * by exact RS.
      rewrite (written_head (List.length r) r (le_n _)). exact R.
  - change (special c_amp) with false. cbn [app]. rewrite pieces_amp.
    + f_equal. apply IH; [cbn in L; lia|exact G2].
    + rewrite reference_head, (written_head (List.length r) r (le_n _)), <- reference_head. exact R.
  - destruct (special c) eqn:S0; cbn [app].
    + rewrite pieces_escaped by (apply special_ascii; exact S0). f_equal. apply IH; [cbn in L; lia|exact G2].
    + rewrite pieces_plain by assumption. f_equal. apply IH; [cbn in L; lia|exact G2].
Qed.

(** A bad escape shows in the text. *)
Lemma written_bad : forall n s, List.length s <= n -> read_text ENT (written s) = read_text ENT s ->
  Forall special_escape (pieces ENT s).
Proof.
  induction n as [|n IH]; intros s L Q; [destruct s; [constructor|cbn in L; lia]|].
  destruct (split_first_all s) as [->|d r -> P E|r -> E|sp m r -> R E|r -> R E|c r -> N1 N2 E];
    [constructor| | | | |]; unfold written in Q; rewrite (read_text_cons _ _ _ E) in Q;
    rewrite E in Q |- *; cbn [flat_map rewritten meaning app] in Q; fold (written r) in Q;
    change (flat_map meaning (pieces ENT r)) with (read_text ENT r) in Q.
  - destruct (special d) eqn:S0.
    + constructor; [exact S0|]. apply IH; [cbn in L; lia|]. cbn [app] in Q.
      rewrite (read_text_cons _ _ _ (pieces_escaped d _ P)) in Q. injection Q as Q. exact Q.
    + exfalso. cbn [app] in Q.
      rewrite (read_text_cons _ _ _ (pieces_escaped c_bs _ eq_refl)) in Q. injection Q as Q _. subst d. discriminate.
  - constructor; [exact Logic.I|]. apply IH; [cbn in L; lia|]. cbn [app] in Q.
    change (special c_bs) with true in Q. cbn iota in Q. cbn [app] in Q.
    rewrite (read_text_cons _ _ _ (pieces_escaped c_bs _ eq_refl)) in Q. injection Q as Q. exact Q.
  - constructor; [exact Logic.I|]. cbn [List.length] in L. rewrite app_length in L. apply IH; [lia|].
    assert (R' : reference_after ENT (sp ++ written r) = Some (sp, m)).
    { rewrite reference_head in R |- *. pose proof (reference_spelling _ _ _ R) as RS.
      rewrite head_run_app in R |- * by exact RS.
      rewrite (written_head (List.length r) r (le_n _)). exact R. }
    rewrite (read_text_cons _ _ _ (pieces_reference _ _ _ R')) in Q. cbn [meaning] in Q.
    apply app_inv_head in Q. exact Q.
  - constructor; [exact Logic.I|]. apply IH; [cbn in L; lia|].
    change (special c_amp) with false in Q. cbn iota in Q. cbn [app] in Q.
    assert (R' : reference_after ENT (written r) = None)
      by (rewrite reference_head, (written_head (List.length r) r (le_n _)), <- reference_head; exact R).
    rewrite (read_text_cons _ _ _ (pieces_amp _ R')) in Q. injection Q as Q. exact Q.
  - constructor; [exact Logic.I|]. apply IH; [cbn in L; lia|].
    destruct (special c) eqn:S0; cbn [app] in Q.
    + rewrite (read_text_cons _ _ _ (pieces_escaped c _ (proj2 (special_ascii c S0)))) in Q. injection Q as Q. exact Q.
    + rewrite (read_text_cons _ _ _ (pieces_plain c _ N1 N2)) in Q. injection Q as Q. exact Q.
Qed.

Lemma inert_meaning : forall l, flat_map meaning (map inert l) = flat_map meaning l.
Proof.
  induction l as [|p l IH]; [reflexivity|]. cbn [map flat_map]. rewrite IH. f_equal.
  destruct p as [c|c|s m]; [cbn; destruct (special c)| |]; reflexivity.
Qed.
Theorem written_reads : forall s,
  read_text ENT (written s) = read_text ENT s <-> Forall special_escape (pieces ENT s).
Proof.
  intro s. split; [apply (written_bad (List.length s)); lia|]. intro G.
  unfold read_text. rewrite (written_pieces (List.length s) s (le_n _) G). apply inert_meaning.
Qed.
End Read.
