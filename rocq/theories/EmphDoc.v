(** Proofs for C46 and C47: what is written for a tree of inline nodes is a
    layout of that tree. *)
From Coq Require Import Bool Arith NArith ZArith Lia ZifyBool ZifyNat ZifyN String List.
From Verif Require Import Base BaseFacts EscapeModel OptsModel PunctModel WrapModel CodeModel TableModel HeadingModel
  AstModel StateModel InlineModel SpecInline SpecText EscapeProof TextProof TextPlain SpecEmph EmphProof StateProof PropsState PropsText PropsRefs.
Import ListNotations.

(** ** Code spans in their source *)
Lemma count_ticks_app : forall s rest, hd_error rest <> Some c_bt -> count_ticks (s ++ rest) = count_ticks s.
Proof.
  intros s rest H. unfold count_ticks. induction s as [|c s IH]; cbn [app take_while].
  - destruct rest as [|d r]; [reflexivity|]. cbn [take_while].
    destruct (ceq_spec c_bt d) as [<-|]; [contradiction H; reflexivity|reflexivity].
  - destruct (ceq c_bt c); [cbn [List.length]; f_equal; exact IH|reflexivity].
Qed.
Lemma count_ticks_le : forall s, count_ticks s <= List.length s.
Proof.
  intro s. unfold count_ticks. induction s as [|c s IH]; cbn [take_while List.length]; [lia|].
  destruct (ceq c_bt c); cbn [List.length]; lia.
Qed.
Lemma skipn_app_le : forall A n (a b : list A), n <= List.length a -> skipn n (a ++ b) = skipn n a ++ b.
Proof. intros A n a b H. rewrite skipn_app. replace (n - List.length a) with 0 by lia. reflexivity. Qed.
Lemma firstn_app_le : forall A n (a b : list A), n <= List.length a -> firstn n (a ++ b) = firstn n a.
Proof. intros A n a b H. rewrite firstn_app. replace (n - List.length a) with 0 by lia. rewrite app_nil_r. reflexivity. Qed.

Lemma closing_run_more : forall f n s raw rest f', closing_run f n s = Some (raw, rest) -> f <= f' ->
  closing_run f' n s = Some (raw, rest).
Proof.
  induction f as [|f IH]; [discriminate|]. intros n s raw rest [|f'] H L; [lia|]. cbn [closing_run] in *.
  destruct s as [|c r]; [discriminate|]. destruct (ceq c c_bt).
  - destruct (_ =? n); [exact H|].
    destruct (closing_run f n (skipn _ (c :: r))) as [[x y]|] eqn:E; [|discriminate].
    rewrite (IH _ _ _ _ f' E) by lia. exact H.
  - destruct (closing_run f n r) as [[x y]|] eqn:E; [|discriminate].
    rewrite (IH _ _ _ _ f' E) by lia. exact H.
Qed.
Lemma closing_run_app : forall f n s raw rest, closing_run f n s = Some (raw, []) -> hd_error rest <> Some c_bt ->
  closing_run f n (s ++ rest) = Some (raw, rest).
Proof.
  induction f as [|f IH]; [discriminate|]. intros n s raw rest H R. cbn [closing_run] in *.
  destruct s as [|c r]; [discriminate|]. cbn [app].
  change (c :: r ++ rest) with ((c :: r) ++ rest). rewrite (count_ticks_app (c :: r) rest R).
  pose proof (count_ticks_le (c :: r)) as L.
  rewrite (skipn_app_le _ _ _ rest L), (firstn_app_le _ _ _ rest L).
  destruct (ceq c c_bt).
  - destruct (_ =? n).
    + injection H as <- H. rewrite H. reflexivity.
    + destruct (closing_run f n (skipn _ (c :: r))) as [[x y]|] eqn:E; [|discriminate].
      injection H as <- ->. rewrite (IH _ _ _ rest E R). reflexivity.
  - destruct (closing_run f n r) as [[x y]|] eqn:E; [|discriminate].
    injection H as <- ->. rewrite (IH _ _ _ rest E R). reflexivity.
Qed.
Lemma parse_code_span_app : forall s x rest, parse_code_span s = Some (x, []) -> hd_error rest <> Some c_bt ->
  parse_code_span (s ++ rest) = Some (x, rest).
Proof.
  intros s x rest H R. unfold parse_code_span in *. rewrite (count_ticks_app s rest R).
  destruct (count_ticks s =? 0); [discriminate|].
  rewrite (skipn_app_le _ _ _ rest (count_ticks_le s)).
  destruct (closing_run (S (List.length s)) (count_ticks s) (skipn (count_ticks s) s)) as [[raw q]|] eqn:E; [|discriminate].
  injection H as <- ->. apply (closing_run_more _ _ _ _ _ (S (List.length (s ++ rest)))) in E; [|rewrite app_length; lia].
  rewrite (closing_run_app _ _ _ _ rest E R). reflexivity.
Qed.

(** The raw content does not end with a backtick. *)
Lemma closing_run_shape : forall f n s raw rest, 0 < n -> closing_run f n s = Some (raw, rest) ->
  s = raw ++ repc c_bt n ++ rest
  /\ (raw = [] \/ exists a c, raw = a ++ [c] /\ c <> c_bt)
  /\ (raw = [] -> exists r, s = c_bt :: r).
Proof.
  induction f as [|f IH]; [discriminate|]. intros n s raw rest Z H. cbn [closing_run] in H.
  destruct s as [|c r]; [discriminate|]. destruct (ceq_spec c c_bt) as [->|N].
  - destruct (take_ticks (c_bt :: r)) as [T1 T2]. set (m := count_ticks (c_bt :: r)) in *.
    destruct (m =? n) eqn:M.
    + apply Nat.eqb_eq in M. injection H as <- <-. rewrite <- M. cbn [app]. repeat split; [exact T1|auto|eauto].
    + destruct (closing_run f n (skipn m (c_bt :: r))) as [[x y]|] eqn:E; [|discriminate].
      destruct (IH _ _ _ _ Z E) as (A & B & C).
      assert (F : firstn m (c_bt :: r) = repc c_bt m).
      { rewrite T1 at 1. apply firstn_repc. }
      assert (RW : raw = repc c_bt m ++ x /\ rest = y).
      { injection H as <- <-. split; [|reflexivity]. exact (f_equal (fun w => w ++ x) F). }
      destruct RW as [-> ->]. clear H F. assert (NX : x <> []).
      { intro K. destruct (C K) as [q Q]. exact (T2 _ _ Q eq_refl). }
      destruct B as [B|(a & d & B & D)]; [contradiction|].
      split; [rewrite <- app_assoc, <- A; exact T1|].
      split; [right; exists (repc c_bt m ++ a), d; rewrite B, <- app_assoc; auto|].
      intro K. apply app_eq_nil in K. destruct K; contradiction.
  - destruct (closing_run f n r) as [[x y]|] eqn:E; [|discriminate].
    injection H as <- <-. destruct (IH _ _ _ _ Z E) as (A & B & _).
    split; [cbn [app]; f_equal; exact A|]. split; [|discriminate].
    right. destruct B as [->|(a & d & -> & D)]; [exists [], c; auto|exists (c :: a), d; auto].
Qed.
Lemma source_shape : forall s x, parse_code_span s = Some (x, []) -> exists raw a c n,
  0 < n /\ s = repc c_bt n ++ raw ++ repc c_bt n /\ raw = a ++ [c] /\ c <> c_bt
  /\ x = strip_one (nl_to_sp raw) /\ count_ticks s = n.
Proof.
  intros s x H. unfold parse_code_span in H. destruct (count_ticks s =? 0) eqn:Z; [discriminate|].
  destruct (closing_run _ _ _) as [[raw q]|] eqn:E; [|discriminate]. injection H as <- ->.
  destruct (take_ticks s) as [T1 T2]. apply closing_run_shape in E; [|lia]. destruct E as (A & B & C).
  rewrite app_nil_r in A.
  destruct B as [B|(a & c & B & D)].
  { destruct (C B) as [r R]. destruct (T2 _ _ R eq_refl). }
  exists raw, a, c, (count_ticks s). repeat split; try assumption; [lia|]. rewrite <- A. exact T1.
Qed.
Lemma repc_rev : forall (c : char) n, rev (repc c n) = repc c n.
Proof.
  intros c n. induction n as [|n IH]; [reflexivity|]. rewrite repc_S_snoc at 1. rewrite rev_app_distr, IH. reflexivity.
Qed.
Lemma byte_len_ge : forall s, List.length s <= byte_len s.
Proof.
  induction s as [|c s IH]; [cbn; lia|]. rewrite (byte_len_app [c] s : byte_len (c :: s) = _). cbn [List.length].
  assert (1 <= byte_len [c]); [|lia].
  change (byte_len [c]) with (utf8_len c + 0). unfold utf8_len. repeat destruct (_ <? _)%N; lia.
Qed.
Lemma source_valid : forall s x, parse_code_span s = Some (x, []) -> is_valid_code_span s = true.
Proof.
  intros s x H. destruct (source_shape s x H) as (raw & a & c & n & Z & E & R & N & _ & T).
  unfold is_valid_code_span.
  assert (NE : is_nil s = false).
  { rewrite E. destruct n; [lia|reflexivity]. }
  rewrite NE. change (List.length (take_while (ceq c_bt) s)) with (count_ticks s). rewrite T.
  replace (n =? 0) with false by lia.
  change (List.length (take_while (ceq c_bt) (rev s))) with (count_ticks (rev s)).
  assert (T2 : count_ticks (rev s) = n).
  { rewrite E, !rev_app_distr, repc_rev, R, rev_app_distr, <- app_assoc. apply count_ticks_repc.
    intros d r K. cbn in K. injection K as <- _. exact N. }
  rewrite T2, Nat.eqb_refl. cbn [andb]. apply Nat.leb_le.
  apply Nat.div_le_lower_bound; [lia|]. pose proof (byte_len_ge s) as B.
  apply (f_equal (@List.length char)) in E. rewrite !app_length, !repc_length in E.
  unfold str in *. lia.
Qed.
Lemma source_ends : forall s x, parse_code_span s = Some (x, []) -> exists q, s = c_bt :: q ++ [c_bt].
Proof.
  intros s x H. destruct (source_shape s x H) as (raw & a & c & n & Z & E & _).
  destruct n as [|n]; [lia|]. exists (repc c_bt n ++ raw ++ repc c_bt n). rewrite E.
  rewrite (repc_S_snoc c_bt n) at 2. change (repc c_bt (S n)) with (c_bt :: repc c_bt n). cbn [app].
  rewrite <- !app_assoc. reflexivity.
Qed.
Lemma formatted_ends : forall x, exists q, format_code_span x = c_bt :: q ++ [c_bt].
Proof.
  intro x. unfold format_code_span.
  set (n := if 0 <? backtick_loop 0 0 x then backtick_loop 0 0 x + 1 else 1).
  assert (Z : exists k, n = S k).
  { exists (n - 1). unfold n. destruct (_ <? _); lia. }
  destruct Z as [k ->].
  assert (G : forall m, exists q, repc c_bt (S k) ++ m ++ repc c_bt (S k) = c_bt :: q ++ [c_bt]).
  { intro m. exists (repc c_bt k ++ m ++ repc c_bt k).
    rewrite (repc_S_snoc c_bt k) at 2. change (repc c_bt (S k)) with (c_bt :: repc c_bt k). cbn [app].
    rewrite <- !app_assoc. reflexivity. }
  destruct x as [|f x'].
  - exact (G []).
  - match goal with |- context [if ?b then _ else _] => destruct b end.
    + destruct (G ([c_sp] ++ (f :: x') ++ [c_sp])) as [q Q]. exists q. rewrite <- Q, <- !app_assoc. reflexivity.
    + apply G.
Qed.
Lemma content_not_nil : forall raw a c, raw = a ++ [c] -> strip_one (nl_to_sp raw) <> [].
Proof.
  intros raw a c -> K. unfold nl_to_sp in K. rewrite map_app in K. cbn [map] in K.
  set (e := if ceq c c_nl then c_sp else c) in K. set (b := map _ a) in K. unfold strip_one in K.
  destruct (b ++ [e]) as [|u r] eqn:E; [destruct b; discriminate|].
  destruct (rev r) as [|v r'] eqn:R; [discriminate K|].
  destruct (ceq u c_sp && ceq v c_sp && negb (all_spaces (u :: r))) eqn:Q; [|discriminate K].
  apply (f_equal (@rev char)) in K. rewrite rev_involutive in K. cbn in K. subst r'.
  apply (f_equal (@rev char)) in R. rewrite rev_involutive in R. cbn in R. subst r.
  apply andb_true_iff in Q. destruct Q as [Q A]. apply andb_true_iff in Q. destruct Q as [Q1 Q2].
  apply ceq_true in Q1. apply ceq_true in Q2. subst. discriminate A.
Qed.
Lemma nl_to_sp_none : forall s, ~ In c_nl (nl_to_sp s).
Proof.
  intros s I. unfold nl_to_sp in I. apply in_map_iff in I. destruct I as (c & E & _).
  destruct (ceq_spec c c_nl); [discriminate E|contradiction].
Qed.
Lemma strip_one_sub : forall s c, In c (strip_one s) -> In c s.
Proof.
  intros s c. unfold strip_one. destruct s as [|a r]; [auto|]. destruct (rev r) as [|b r'] eqn:R; [auto|].
  destruct (_ && _); [|auto]. intro I. right. apply in_rev. rewrite R. right. apply in_rev in I. exact I.
Qed.

(** ** Sources of links *)
(** Brackets in pairs, [d] of them open before. *)
Fixpoint level (d : nat) (s : str) : option nat :=
  match s with
  | [] => Some d
  | c :: r =>
      if ceq c c_lbr then level (S d) r
      else if ceq c c_rbr then match d with 0 => None | S k => level k r end
      else level d r
  end.
Definition balanced (s : str) : Prop := level 0 s = Some 0.
(** Written with a label or with a URL. *)
Definition labelled (image : bool) (inside source : str) : Prop :=
  exists tail, source = opening_bracket image ++ inside ++ [c_rbr] ++ tail /\ balanced inside /\ hd_error tail <> Some c_lpar.
Definition unlabelled (source : str) : Prop :=
  ~ In c_lbr source
  \/ exists image inside tail, source = opening_bracket image ++ inside ++ [c_rbr; c_lpar] ++ tail /\ balanced inside.

Lemma closing_level : forall s d e r, level d s = Some e ->
  closing_bracket (Z.of_nat (S d)) (s ++ r) = option_map (fun k => List.length s + k) (closing_bracket (Z.of_nat (S e)) r).
Proof.
  induction s as [|c s IH]; intros d e r H.
  - injection H as <-. cbn [app List.length]. destruct (closing_bracket _ r); reflexivity.
  - cbn [level] in H. cbn [app closing_bracket List.length]. destruct (ceq c c_lbr).
    + replace (Z.of_nat (S d) + 1)%Z with (Z.of_nat (S (S d))) by lia. rewrite (IH _ _ r H).
      destruct (closing_bracket _ r); reflexivity.
    + destruct (ceq c c_rbr).
      * destruct d as [|d]; [discriminate H|]. replace (Z.of_nat (S (S d)) - 1)%Z with (Z.of_nat (S d)) by lia.
        replace (Z.of_nat (S d) =? 0)%Z with false by lia. rewrite (IH _ _ r H). destruct (closing_bracket _ r); reflexivity.
      * rewrite (IH _ _ r H). destruct (closing_bracket _ r); reflexivity.
Qed.
Lemma closing_balanced : forall s r, balanced s -> closing_bracket 0%Z (c_lbr :: s ++ c_rbr :: r) = Some (S (List.length s)).
Proof.
  intros s r B. cbn [closing_bracket]. rewrite ceq_refl. change (0 + 1)%Z with (Z.of_nat 1).
  rewrite (closing_level s 0 0 _ B). cbn [closing_bracket]. change (ceq c_rbr c_lbr) with false. rewrite ceq_refl.
  cbn [Z.of_nat Pos.of_succ_nat]. change (1 - 1 =? 0)%Z with true. cbv iota. cbn [option_map]. f_equal. lia.
Qed.
Lemma strip_opening : forall image r,
  (match strip_prefix [c_bang] (opening_bracket image ++ r) with Some q => q | None => opening_bracket image ++ r end) = c_lbr :: r.
Proof. intros [|] r; reflexivity. Qed.
Lemma style_is : forall image inside tail, balanced inside ->
  reference_style (opening_bracket image ++ inside ++ [c_rbr] ++ tail)
  = if starts_with [c_lpar] tail then None
    else match (match strip_prefix [c_lbr] tail with
                | Some label_content =>
                    match before_char c_rbr label_content with
                    | Some label => Some (normalize_whitespace label)
                    | None => None
                    end
                | None => None
                end) with
         | Some label => Some (normalize_whitespace inside, if is_nil label then c_soh :: normalize_whitespace inside else label)
         | None => Some (normalize_whitespace inside, normalize_whitespace inside)
         end.
Proof.
  intros image inside tail B. unfold reference_style. rewrite strip_opening. cbn [find_byte]. rewrite ceq_refl.
  cbn [app]. change (skipn 0 (c_lbr :: inside ++ c_rbr :: tail)) with (c_lbr :: inside ++ c_rbr :: tail).
  rewrite (closing_balanced inside tail B).
  assert (K : skipn (S (List.length inside)) (inside ++ c_rbr :: tail) = tail).
  { change (inside ++ c_rbr :: tail) with (inside ++ [c_rbr] ++ tail). rewrite app_assoc.
    replace (S (List.length inside)) with (List.length (inside ++ [c_rbr])) by (rewrite app_length; cbn; lia).
    apply skipn_app_len. }
  cbn [Nat.add]. rewrite Nat.add_1_r.
  change (skipn (S (S (List.length inside))) (c_lbr :: inside ++ c_rbr :: tail))
    with (skipn (S (List.length inside)) (inside ++ c_rbr :: tail)).
  rewrite K. change (skipn 1 (c_lbr :: inside ++ c_rbr :: tail)) with (inside ++ c_rbr :: tail).
  cbn [Nat.sub]. rewrite Nat.sub_0_r, (firstn_app_le _ _ _ _ (le_n _)), firstn_all. reflexivity.
Qed.
Lemma find_byte_none : forall c s, ~ In c s -> find_byte c s = None.
Proof.
  intros c s. induction s as [|x s IH]; intro H; [reflexivity|]. cbn [find_byte].
  destruct (ceq_spec x c) as [->|]; [contradiction H; left; reflexivity|].
  rewrite IH; [reflexivity|]. intro I. apply H. right. exact I.
Qed.
Lemma style_unlabelled : forall source, unlabelled source -> reference_style source = None.
Proof.
  intros source [N|(image & inside & tail & -> & B)].
  - unfold reference_style. rewrite find_byte_none; [reflexivity|]. intro I. apply N.
    destruct source as [|c r]; [exact I|]. cbn [strip_prefix] in I. destruct (ceq c_bang c); [right; exact I|exact I].
  - change ([c_rbr; c_lpar] ++ tail) with ([c_rbr] ++ c_lpar :: tail). rewrite (style_is image inside (c_lpar :: tail) B).
    reflexivity.
Qed.

(** ** NUL, which stands for soft line endings *)
Definition sub (g : char) (s : str) : str := map (fun c => if ceq c c_nul then g else c) s.
Lemma sub_app : forall g a b, sub g (a ++ b) = sub g a ++ sub g b. Proof. intros. apply map_app. Qed.
Lemma sub_free : forall g s, ~ In c_nul s -> sub g s = s.
Proof.
  intros g s. induction s as [|c s IH]; intro N; [reflexivity|]. cbn [sub map].
  destruct (ceq_spec c c_nul) as [->|]; [contradiction N; left; reflexivity|]. f_equal. apply IH. intro I. apply N. right. exact I.
Qed.
Lemma sub_nul : forall s, sub c_nul s = s.
Proof.
  induction s as [|c s IH]; [reflexivity|]. cbn [sub map]. destruct (ceq_spec c c_nul) as [->|]; f_equal; exact IH.
Qed.
Lemma sub_gone : forall s, ~ In c_nul (sub c_sp s).
Proof.
  intros s I. unfold sub in I. apply in_map_iff in I. destruct I as (c & E & _). destruct (ceq_spec c c_nul); [discriminate E|contradiction].
Qed.
Lemma sub_replace : forall s, replace_char c_nul [c_sp] s = sub c_sp s.
Proof.
  intro s. unfold replace_char, sub. induction s as [|c s IH]; [reflexivity|]. cbn [flat_map map]. rewrite IH.
  destruct (ceq c c_nul); reflexivity.
Qed.
Lemma split_ws_in : forall s cur w c, In w (split_ws_aux cur s) -> In c w -> In c cur \/ In c s.
Proof.
  induction s as [|x s IH]; intros cur w c I J; cbn [split_ws_aux] in I.
  - destruct (is_nil cur); [destruct I|]. destruct I as [<-|[]]. left. apply in_rev. exact J.
  - destruct (is_ws x).
    + destruct (is_nil cur).
      * destruct (IH _ _ _ I J) as [[]|K]. right. right. exact K.
      * destruct I as [<-|I]; [left; apply in_rev; exact J|]. destruct (IH _ _ _ I J) as [[]|K]. right. right. exact K.
    + destruct (IH _ _ _ I J) as [[->|K]|K]; [right; left; reflexivity|left; exact K|right; right; exact K].
Qed.
Lemma normalize_in : forall s c, In c (normalize_whitespace s) -> c = c_sp \/ In c s.
Proof.
  intros s c H. unfold normalize_whitespace in H.
  assert (W : forall w, In w (split_whitespace s) -> In c w -> In c s).
  { intros w I J. destruct (split_ws_in s [] w c I J) as [[]|K]. exact K. }
  induction (split_whitespace s) as [|w ws IH]; [destruct H|]. cbn [join] in H. destruct ws as [|w2 ws].
  - right. exact (W w (or_introl eq_refl) H).
  - apply in_app_or in H. destruct H as [H|H]; [right; exact (W w (or_introl eq_refl) H)|].
    apply in_app_or in H. destruct H as [[H|[]]|H]; [left; auto|]. apply IH; [exact H|]. intros x I. apply W. right. exact I.
Qed.
Lemma style_labelled : forall image inside source, labelled image inside source -> ~ In c_nul source ->
  exists label, reference_style source = Some (normalize_whitespace inside, label)
    /\ ~ In c_nul (normalize_whitespace inside) /\ ~ In c_nul label
    /\ (forall l, strip_prefix [c_soh] label = Some l -> l = normalize_whitespace inside \/ In c_soh source).
Proof.
  intros image inside source (tail & -> & B & H) Z. rewrite (style_is image inside tail B).
  replace (starts_with [c_lpar] tail) with false.
  2:{ destruct tail as [|c r]; [reflexivity|]. unfold starts_with. cbn [strip_prefix]. cbn [hd_error] in H.
      destruct (ceq_spec c_lpar c) as [<-|]; [contradiction H; reflexivity|reflexivity]. }
  assert (Z1 : ~ In c_nul (normalize_whitespace inside)).
  { intro I. apply normalize_in in I. destruct I as [I|I]; [discriminate I|]. apply Z. apply in_or_app. right. apply in_or_app. left. exact I. }
  assert (M : forall w l, strip_prefix [c_soh] (normalize_whitespace w) = Some l -> In c_soh w).
  { intros w l Q. destruct (normalize_whitespace w) as [|x y] eqn:NW; [discriminate Q|]. cbn [strip_prefix] in Q.
    destruct (ceq_spec c_soh x) as [<-|]; [|discriminate Q].
    destruct (normalize_in w c_soh) as [K|K]; [rewrite NW; left; reflexivity|discriminate K|exact K]. }
  assert (MI : forall l, strip_prefix [c_soh] (normalize_whitespace inside) = Some l ->
    l = normalize_whitespace inside \/ In c_soh (opening_bracket image ++ inside ++ [c_rbr] ++ tail)).
  { intros l Q. right. apply in_or_app. right. apply in_or_app. left. exact (M _ _ Q). }
  destruct (strip_prefix [c_lbr] tail) as [lc|] eqn:SP; [|eexists; split; [reflexivity|auto]].
  destruct (before_char c_rbr lc) as [l|] eqn:BC; [|eexists; split; [reflexivity|auto]].
  eexists. split; [reflexivity|]. split; [exact Z1|]. destruct (is_nil (normalize_whitespace l)).
  - split; [intros [I|I]; [discriminate I|exact (Z1 I)]|]. intros q Q. left. cbn [strip_prefix] in Q. rewrite ceq_refl in Q. injection Q as <-. reflexivity.
  - assert (T : forall x, In x l -> In x (opening_bracket image ++ inside ++ [c_rbr] ++ tail)).
    { intros x I. apply in_or_app. right. apply in_or_app. right. apply in_or_app. right.
      apply (strip_prefix_in _ _ _ SP). exact (before_char_in _ _ _ BC _ I). }
    split; [intro I; apply normalize_in in I; destruct I as [I|I]; [discriminate I|exact (Z (T _ I))]|].
    intros q Q. right. apply T. exact (M _ _ Q).
Qed.

Section Doc.
Variable U : Uni.
Variable ENT : str -> option str.
Hypothesis Names : forall n m, ENT n = Some m -> n <> [] /\ forallb is_ascii_alnum n = true.
Variable o : Options.
Variable src : list str.
(** In a heading ([title]) a soft line ending is written as a space, and there
    are no hard ones; elsewhere a soft one is written as NUL, to become a space
    or a line ending when the paragraph is wrapped. *)
Variable title : bool.
(** The references that are used. *)
Variable used : reference -> Prop.
Definition soft : char := if title then c_sp else c_nul.
Definition collect (next : option node) (n : node) : W :=
  if title then collect_text U ENT o src n else collect_inline U ENT o src next n.

(** The source of a text node reads as its text, and either it has no backslash
    and no ampersand, or no punctuation setting changes the text and no escape
    and no reference of the source is of the kinds C42 excludes. *)
Definition text_in_source (p : sourcepos) (t : str) : Prop :=
  exists source, extract_source src p = Ok (Some source) /\ read_text ENT source = t
    /\ (~ In c_bs source /\ ~ In c_amp source
        \/ transform_punctuation U o t = t
           /\ Forall ordinary (pieces ENT source) /\ no_loose_number (pieces ENT source)
           /\ Forall special_escape (pieces ENT source)).
(** The source of a code span reads as its content; if the span takes several
    lines, the content does not begin and end with a space. *)
Definition code_in_source (p : sourcepos) (x : str) : Prop :=
  exists source, extract_source src p = Ok (Some source) /\ parse_code_span source = Some (x, [])
    /\ (In c_nl source -> ~ (sp_both_ends x /\ all_spaces x = false)).

Definition is_text (n : node) : bool := match node_value n with NText _ => true | _ => false end.
Definition is_code (n : node) : bool := match node_value n with NCode _ => true | _ => false end.
(** Neither text next to text nor code next to code. *)
Fixpoint apart (cs : list node) : Prop :=
  match cs with
  | a :: r =>
      match r with
      | b :: _ => is_text a && is_text b = false /\ is_code a && is_code b = false
      | [] => True
      end /\ apart r
  | [] => True
  end.
(** What the tree stands for, its punctuation as it is. *)
Fixpoint verbatim (n : node) : list inl :=
  match n with
  | Node v _ cs =>
      match v with
      | NText t => map Chr t
      | NCode x => [Cod x]
      | NSoftBreak => [Chr c_sp]
      | NLineBreak => [Chr c_nl]
      | NEmph => [Em (flat_map verbatim cs)]
      | NStrong => [St (flat_map verbatim cs)]
      | NLink url t => [Lnk false (flat_map verbatim cs) url t]
      | NImage url t => [Lnk true (flat_map verbatim cs) url t]
      | NHtmlInline html => [Raw html]
      | NFootnoteReference name => [Fn name]
      | _ => []
      end
  end.
(** The text of a link between its brackets, its white space as single spaces,
    is a layout of the link's content. *)
Definition copied (inside : str) (cs : list node) : Prop :=
  exists body, sound ENT body (Some c_rbr) /\ spell body = normalize_whitespace inside /\ contents body = flat_map verbatim cs.
(** Text that no reader could take for more, or a soft line ending. *)
Definition simple (n : node) : Prop :=
  match node_value n with
  | NText t => Forall (fun c => special c = false /\ c <> c_amp /\ c <> c_nul) t
  | NSoftBreak => True
  | _ => False
  end.
(** A link or image.  In a heading the text is copied from the source or simple;
    elsewhere it is copied if there is a label (and no image), and otherwise
    its [content] is written. *)
Definition link_in_source (image : bool) (p : sourcepos) (cs : list node) (url t : str) (content : Prop) : Prop :=
  ~ In c_nul url /\ ~ In c_nul t
  /\ exists source, extract_source src p = Ok (Some source) /\ ~ In c_nul source
     /\ if title then
          image = false /\ (exists inside, labelled false inside source /\ copied inside cs)
          \/ (image = false -> unlabelled source) /\ Forall simple cs
        else
          (exists inside, labelled image inside source
             /\ (existsb is_image cs = false \/ image = true) /\ copied inside cs)
          \/ (exists inside, labelled false inside source /\ existsb is_image cs = true /\ image = false /\ content)
          \/ unlabelled source /\ content
             /\ (image = false -> t = [] -> flat_map raw_text cs = url -> flat_map verbatim cs = map Chr url).
(** A tree of inline nodes that are in the source. *)
Fixpoint emphatic (n : node) : Prop :=
  match n with
  | Node v p cs =>
      let content := apart cs /\ (fix all (l : list node) : Prop :=
                                    match l with [] => True | c :: r => emphatic c /\ all r end) cs in
      match v with
      | NText t => t <> [] /\ ~ In c_nul t /\ text_in_source p t
      | NCode x => ~ In c_nul x /\ code_in_source p x
      | NSoftBreak => True
      | NLineBreak => title = false
      | NEmph | NStrong => content
      | NLink url t => link_in_source false p cs url t content
      | NImage url t => link_in_source true p cs url t content
      | NHtmlInline html => title = false /\ ~ In c_nul html /\ exists s, html = [c_lt] ++ s ++ [c_gt]
      | NFootnoteReference name => title = false /\ ~ In c_nul name
      | _ => False
      end
  end.

(** What the tree stands for, its punctuation converted; only in the text of
    links and images it may stay as it is. *)
Inductive says : node -> list inl -> Prop :=
| says_text : forall t p cs, says (Node (NText t) p cs) (map Chr (transform_punctuation U o t))
| says_code : forall x p cs, says (Node (NCode x) p cs) [Cod x]
| says_soft : forall p cs c, c = c_nul \/ c = c_sp -> says (Node NSoftBreak p cs) [Chr c]
| says_line : forall p cs, says (Node NLineBreak p cs) [Chr c_nl]
| says_emph : forall p cs xs, Forall2 says cs xs -> says (Node NEmph p cs) [Em (List.concat xs)]
| says_strong : forall p cs xs, Forall2 says cs xs -> says (Node NStrong p cs) [St (List.concat xs)]
| says_link : forall url t p cs xs, Forall2 says cs xs -> says (Node (NLink url t) p cs) [Lnk false (List.concat xs) url t]
| says_link_text : forall url t p cs, says (Node (NLink url t) p cs) [Lnk false (flat_map verbatim cs) url t]
| says_image : forall url t p cs xs, Forall2 says cs xs -> says (Node (NImage url t) p cs) [Lnk true (List.concat xs) url t]
| says_image_text : forall url t p cs, says (Node (NImage url t) p cs) [Lnk true (flat_map verbatim cs) url t]
| says_html : forall html p cs, says (Node (NHtmlInline html) p cs) [Raw html]
| says_note : forall name p cs, says (Node (NFootnoteReference name) p cs) [Fn name].

(** A link or an image. *)
Definition lv (image : bool) (url t : str) : value := if image then NImage url t else NLink url t.
(** What is known of a link that is written with [h] behind its brackets: the
    reference it uses, unless its source has U+0001 in it; with its URL are
    written images, links with an image in them and links inside the site. *)
Definition labelled_at (p : sourcepos) : Prop :=
  exists source image inside, extract_source src p = Ok (Some source) /\ ~ In c_nul source /\ labelled image inside source.
Definition marked_at (p : sourcepos) : Prop :=
  exists source, extract_source src p = Ok (Some source) /\ In c_soh source.
Definition how_written (image : bool) (p : sourcepos) (cs : list node) (url t inside : str) (h : how) : Prop :=
  match h with
  | Inline u t' => u = url /\ t' = t /\ (image = true \/ is_external_url url = false \/ existsb is_image cs = true)
  | ByLabel l => used (mkRef l url t)
  | Collapsed => used (mkRef inside url t) \/ marked_at p
  | Shortcut => used (mkRef inside url t)
  end.
(** Brackets alone stand before no bracket, unless they did so in the source. *)
Definition ends_open (n : node) (l : lay) (next : option node) : Prop :=
  match l with
  | LLink _ _ Shortcut _ _ => title = true \/ labelled_at (node_pos n) \/ next_starts_with_bracket next = false
  | _ => True
  end.
Fixpoint joined (cs : list node) (ls : list lay) : Prop :=
  match cs, ls with
  | n :: cs', l :: ls' => ends_open n l (hd_error cs') /\ joined cs' ls'
  | _, _ => True
  end.
Inductive lays : node -> lay -> Prop :=
| lays_text : forall t p cs ps, plain_text ENT ps -> ps <> [] -> flat_map meaning ps = transform_punctuation U o t ->
    lays (Node (NText t) p cs) (LText ps)
| lays_code : forall x p cs s, code_span s x -> lays (Node (NCode x) p cs) (LCode s x)
| lays_soft : forall p cs c, c = c_nul \/ c = c_sp -> lays (Node NSoftBreak p cs) (LBreak c)
| lays_line : forall p cs, lays (Node NLineBreak p cs) (LBreak c_nl)
| lays_emph : forall p cs c body, delimiter_rule src (Node NEmph p cs) 1 [c] -> Forall2 lays cs body -> apart cs -> joined cs body ->
    lays (Node NEmph p cs) (LMark false c body)
| lays_strong : forall p cs c body, delimiter_rule src (Node NStrong p cs) 2 [c; c] -> Forall2 lays cs body -> apart cs -> joined cs body ->
    lays (Node NStrong p cs) (LMark true c body)
| lays_link : forall image url t p cs body h, Forall2 lays cs body -> apart cs -> joined cs body ->
    how_written image p cs url t (spell body) h ->
    lays (Node (lv image url t) p cs) (LLink image body h url t)
| lays_copied : forall image url t p cs body h, sound ENT body (Some c_rbr) -> contents body = flat_map verbatim cs ->
    title = true \/ labelled_at p -> how_written image p cs url t (spell body) h ->
    lays (Node (lv image url t) p cs) (LLink image body h url t)
| lays_auto : forall url p cs, flat_map verbatim cs = map Chr url ->
    lays (Node (NLink url []) p cs) (LAngle url (Lnk false (map Chr url) url []))
| lays_html : forall s p cs, lays (Node (NHtmlInline ([c_lt] ++ s ++ [c_gt])) p cs) (LAngle s (Raw ([c_lt] ++ s ++ [c_gt])))
| lays_note : forall name p cs, lays (Node (NFootnoteReference name) p cs) (LNote name).

(** ** Text and code *)
Lemma strip_one_keeps : forall s c, c <> c_sp -> In c s -> In c (strip_one s).
Proof.
  intros s c N I. unfold strip_one. destruct s as [|a r]; [exact I|]. destruct (rev r) as [|b r'] eqn:R; [exact I|].
  destruct (ceq a c_sp && ceq b c_sp && negb (all_spaces (a :: r))) eqn:Q; [|exact I].
  apply andb_true_iff in Q. destruct Q as [Q _]. apply andb_true_iff in Q. destruct Q as [Q1 Q2].
  apply ceq_true in Q1. apply ceq_true in Q2. subst a b. apply in_rev. rewrite rev_involutive.
  destruct I as [I|I]; [contradiction N; auto|]. apply in_rev in I. rewrite R in I. destruct I as [I|I]; [contradiction N; auto|exact I].
Qed.
Lemma repc_in : forall (c d : char) n, In c (repc d n) -> c = d.
Proof. intros c d n. induction n as [|n IH]; intro I; [destruct I|]. destruct I as [I|I]; [auto|exact (IH I)]. Qed.
Lemma source_nul : forall s x, parse_code_span s = Some (x, []) -> ~ In c_nul x -> ~ In c_nul s.
Proof.
  intros s x H N I. destruct (source_shape s x H) as (raw & a & c & n & _ & E & _ & _ & X & _). subst x. apply N.
  apply strip_one_keeps; [discriminate|]. rewrite E in I. apply in_app_or in I.
  destruct I as [I|I]; [apply repc_in in I; discriminate I|]. apply in_app_or in I.
  destruct I as [I|I]; [|apply repc_in in I; discriminate I]. unfold nl_to_sp. apply in_map_iff. exists c_nul. split; [reflexivity|exact I].
Qed.
Lemma formatted_nul : forall x, ~ In c_nul x -> ~ In c_nul (format_code_span x).
Proof.
  intros x N I. unfold format_code_span in I. set (n := if 0 <? backtick_loop 0 0 x then _ else 1) in I.
  assert (G : forall m : str, ~ In c_nul m -> In c_nul (repc c_bt n ++ m ++ repc c_bt n) -> False).
  { intros m M J. apply in_app_or in J. destruct J as [J|J]; [apply repc_in in J; discriminate J|]. apply in_app_or in J.
    destruct J as [J|J]; [exact (M J)|apply repc_in in J; discriminate J]. }
  destruct x as [|f x'].
  - exact (G [] (fun K => match K with end) I).
  - match type of I with context [if ?b then _ else _] => destruct b end.
    + apply (G ([c_sp] ++ (f :: x') ++ [c_sp])).
      * intro J. apply in_app_or in J. destruct J as [[J|[]]|J]; [discriminate J|]. apply in_app_or in J.
        destruct J as [J|[J|[]]]; [exact (N J)|discriminate J].
      * rewrite <- !app_assoc in *. exact I.
    + exact (G _ N I).
Qed.
Lemma pieces_nul : forall w, In c_nul w -> In c_nul (flat_map meaning (pieces ENT w)).
Proof.
  intro w. remember (List.length w) as n eqn:E. revert w E.
  induction n as [n IH] using lt_wf_ind. intros w E I. destruct w as [|c r]; [destruct I|].
  destruct (first_piece_prefix ENT c r) as (s' & F & Ln). rewrite (pieces_cons ENT c r s' F). cbn [flat_map].
  assert (F' : c :: r = spelling (first_piece ENT c r) ++ s') by exact F. rewrite F' in I. apply in_app_or in I. apply in_or_app. destruct I as [I|I].
  - left. unfold first_piece in *. destruct (ceq_spec c c_bs) as [->|].
    + destruct r as [|d r]; [|destruct (is_ascii_punct d) eqn:P]; cbn [spelling meaning] in *.
      * destruct I as [I|[]]; discriminate I.
      * destruct I as [I|[I|[]]]; [discriminate I|]. subst d. discriminate P.
      * destruct I as [I|[]]; discriminate I.
    + destruct (ceq_spec c c_amp) as [->|]; [|exact I].
      destruct (reference_after ENT r) as [[sp m]|] eqn:R; [|exact I]. cbn [spelling] in I. destruct I as [I|I]; [discriminate I|].
      apply (reference_spelling ENT) in R. rewrite forallb_forall in R. specialize (R _ I). discriminate R.
  - right. apply (IH (List.length s')); [|reflexivity|exact I].
    apply (f_equal (@List.length char)) in F. rewrite app_length in F. unfold str in *. lia.
Qed.
Lemma text_lays : forall p t cs out evs, t <> [] -> ~ In c_nul t -> text_in_source p t ->
  inline_text U ENT o src p t = Ok (out, evs) ->
  ~ In c_nul out /\ exists l, lays (Node (NText t) p cs) l /\ spell1 l = out.
Proof.
  intros p t cs out evs NE NN (source & X & R & K) H.
  assert (G : exists w, inline_text U ENT o src p t = Ok (w, []) /\ read_text ENT w = transform_punctuation U o t
            /\ forall c, special c = true -> ~ In (Plain c) (pieces ENT w)).
  { destruct K as [[NB NA]|(T & O & L & G)].
    - exact (C42_converted_reads_back U ENT o src p t source X R NB NA).
    - destruct (C42_text_reads_back_partial U ENT o src p t source Names X R T O L) as (w & E & RB & Q).
      exists w. split; [exact E|]. split; [rewrite T; apply RB; exact G|apply (Q G)]. }
  destruct G as (w & E & G & Sp). rewrite E in H. injection H as <- <-.
  assert (SP : flat_map spelling (pieces ENT w) = w).
  { clear. remember (List.length w) as n eqn:E. revert w E.
    induction n as [n IH] using lt_wf_ind. intros w E.
    destruct w as [|c r]; [reflexivity|]. destruct (first_piece_prefix ENT c r) as (s' & F & Ln).
    rewrite (pieces_cons ENT c r s' F). cbn [flat_map]. etransitivity; [|symmetry; exact F]. f_equal.
    apply (IH (List.length s')); [|reflexivity].
    apply (f_equal (@List.length char)) in F. rewrite app_length in F. unfold str in *. lia. }
  split.
  { intro I. apply pieces_nul in I. unfold read_text in G. rewrite G in I.
    assert (Q : Forall (fun c => c <> c_nul) (transform_punctuation U o t)).
    { apply all_transform.
      - apply Forall_forall. intros c J ->. cbn in J. repeat (destruct J as [J|J]; [discriminate J|]). destruct J.
      - apply Forall_forall. intros c J ->. exact (NN J). }
    rewrite Forall_forall in Q. exact (Q _ I eq_refl). }
  exists (LText (pieces ENT w)). split; [|exact SP]. constructor.
  - split; [rewrite SP; reflexivity|exact Sp].
  - intro Z. unfold read_text in G. rewrite Z in G. cbn in G. exact (transform_not_nil U o t NE (eq_sym G)).
  - exact G.
Qed.
Lemma code_lays : forall p x cs out evs, ~ In c_nul x -> code_in_source p x ->
  inline_code src p x = Ok (out, evs) -> ~ In c_nul out /\ exists l, lays (Node (NCode x) p cs) l /\ spell1 l = out.
Proof.
  intros p x cs out evs NN (source & X & P & B) H. unfold inline_code in H. rewrite X in H. cbn [rbind] in H.
  rewrite (source_valid source x P) in H. cbn [andb] in H. injection H as H _.
  split.
  { subst out. destruct (negb _); [exact (source_nul source x P NN)|exact (formatted_nul x NN)]. }
  exists (LCode out x). split; [|reflexivity]. constructor.
  destruct (contains_char c_nl source) eqn:C; cbn [negb] in H.
  - assert (IN : In c_nl source).
    { unfold contains_char in C. apply existsb_exists in C. destruct C as (d & I & E). apply ceq_true in E. subst. exact I. }
    subst out. split; [apply formatted_ends|]. intros rest R.
    destruct (source_shape source x P) as (raw & a & c & n & _ & _ & RW & _ & -> & _).
    apply format_code_span_roundtrip.
    + exact (content_not_nil raw a c RW).
    + intro I. apply strip_one_sub in I. exact (nl_to_sp_none raw I).
    + exact (B IN).
    + intros d r ->. intro K. subst d. apply R. reflexivity.
  - subst out. split; [exact (source_ends source x P)|]. intros rest R. apply parse_code_span_app; assumption.
Qed.

Lemma emphasis_mark : forall n c, delimiter_rule src n 1 [c] -> is_mark c = true.
Proof. intros n c [[_ E]|(_ & _ & E)]; injection E as ->; reflexivity. Qed.
Lemma strong_mark : forall n c, delimiter_rule src n 2 [c; c] -> is_mark c = true.
Proof. intros n c [[_ E]|(_ & _ & E)]; injection E as -> _; reflexivity. Qed.
Lemma strong_two : forall n d, strong_delimiter src n = Ok d -> exists c, d = [c; c].
Proof.
  intros n d H. apply strong_delimiter_rule in H.
  destruct H as [[_ E]|(_ & _ & E)]; subst d; [exists c_us|exists c_star]; reflexivity.
Qed.

Lemma emphatic_all : forall cs,
  (fix all (l : list node) : Prop := match l with [] => True | c :: r => emphatic c /\ all r end) cs
  <-> Forall emphatic cs.
Proof.
  induction cs as [|c r IH]; [split; [constructor|constructor]|]. rewrite IH. split.
  - intros [A B]. constructor; assumption.
  - intro F. inversion F. auto.
Qed.

(** ** One node: a layout of what is written, or of it with every NUL replaced
    by a space. *)
Definition all_used (evs : list inline_event) : Prop := forall r, In (EvUse r) evs -> used r.
Lemma all_used_app : forall a b, all_used (a ++ b) -> all_used a /\ all_used b.
Proof. intros a b H. split; intros r I; apply H; apply in_or_app; auto. Qed.
Definition laid (n : node) : Prop := forall next out evs g, g = c_nul \/ g = c_sp -> emphatic n ->
  collect next n = Ok (out, evs) -> all_used evs -> exists l, lays n l /\ spell1 l = sub g out /\ ends_open n l next.
Lemma kids_lay : forall cs out evs g, g = c_nul \/ g = c_sp -> Forall laid cs ->
  Forall emphatic cs -> wcat (with_next collect cs) = Ok (out, evs) -> all_used evs ->
  exists ls, Forall2 lays cs ls /\ spell ls = sub g out /\ joined cs ls.
Proof.
  induction cs as [|c r IH]; intros out evs g G F E H W.
  - injection H as <- <-. exists []. split; [constructor|split; [reflexivity|exact Logic.I]].
  - cbn [with_next wcat fold_right] in H. apply wapp_ok in H. destruct H as ([x1 x2] & [y1 y2] & A & B & Q).
    cbn [fst snd] in Q. injection Q as -> ->. inversion F as [|? ? F1 F2]; subst. inversion E as [|? ? E1 E2]; subst.
    apply all_used_app in W. destruct W as [W1 W2].
    destruct (F1 _ _ _ g G E1 A W1) as (l & L & S1 & O1). destruct (IH _ _ g G F2 E2 B W2) as (ls & Ls & S2 & O2).
    exists (l :: ls). split; [constructor; assumption|]. split; [|split; [exact O1|exact O2]].
    unfold spell in *. cbn [flat_map]. rewrite S1, S2, sub_app. reflexivity.
Qed.
Lemma with_next_map : forall A (f : node -> A) cs, with_next (fun _ => f) cs = map f cs.
Proof. intros A f cs. induction cs as [|c r IH]; [reflexivity|]. cbn [with_next map]. rewrite IH. reflexivity. Qed.
Definition plain_node (v : value) : bool :=
  match v with NText _ | NCode _ | NSoftBreak | NEmph | NStrong => true | NLineBreak => negb title | _ => false end.
Lemma collect_is : forall next v p cs, plain_node v = true ->
  collect next (Node v p cs) =
  match v with
  | NText t => inline_text U ENT o src p t
  | NCode x => inline_code src p x
  | NSoftBreak => wret [soft]
  | NLineBreak => wret [c_nl]
  | NEmph => rbind (emphasis_delimiter src (Node v p cs))
               (fun d => wapp (wret [d]) (wapp (wcat (with_next collect cs)) (wret [d])))
  | NStrong => rbind (strong_delimiter src (Node v p cs))
               (fun d => wapp (wret d) (wapp (wcat (with_next collect cs)) (wret d)))
  | _ => wret []
  end.
Proof.
  intros next v p cs E. unfold collect, soft, plain_node in *.
  assert (TM : title = true -> with_next (fun next n => if title then collect_text U ENT o src n else collect_inline U ENT o src next n) cs
               = map (collect_text U ENT o src) cs).
  { intro T. rewrite T. apply with_next_map. }
  assert (IM : title = false -> with_next (fun next n => if title then collect_text U ENT o src n else collect_inline U ENT o src next n) cs
               = with_next (collect_inline U ENT o src) cs).
  { intro T. rewrite T. reflexivity. }
  destruct v; try discriminate E; destruct title eqn:T; try discriminate E;
    cbn [collect_text collect_inline]; try reflexivity;
    rewrite ?(TM eq_refl), ?(IM eq_refl); reflexivity.
Qed.

(** ** Links *)
Lemma title_how : forall url t, ~ In c_nul url -> ~ In c_nul t ->
  lit "](" ++ url ++ title_suffix t ++ [c_rpar] = [c_rbr] ++ spell_how (Inline url t)
  /\ ~ In c_nul ([c_rbr] ++ spell_how (Inline url t)).
Proof.
  intros url t NU NT. split.
  - unfold title_suffix, spell_how. destruct (is_nil t); reflexivity.
  - cbn [spell_how]. intro I. repeat (apply in_app_or in I; destruct I as [I|I]); try (destruct I as [I|[]]; discriminate I); try contradiction.
    destruct (is_nil t); [destruct I|]. repeat (apply in_app_or in I; destruct I as [I|I]); try contradiction.
    + destruct I as [I|[I|[]]]; discriminate I.
    + destruct I as [I|[]]; discriminate I.
Qed.
Lemma format_reference_how : forall image p cs open text label url t out evs, ~ In c_nul text -> ~ In c_nul label ->
  (forall l, strip_prefix [c_soh] label = Some l -> l = text \/ marked_at p) -> all_used evs ->
  format_reference open text label url t = Ok (out, evs) ->
  exists h, out = open ++ text ++ [c_rbr] ++ spell_how h /\ ~ In c_nul ([c_rbr] ++ spell_how h)
    /\ how_written image p cs url t text h.
Proof.
  intros image p cs open text label url t out evs NT NL M W H. unfold format_reference, wuse in H.
  destruct (strip_prefix [c_soh] label) as [l|].
  - injection H as <- <-. exists Collapsed. split; [reflexivity|]. split; [cbn; intuition discriminate|].
    destruct (M l eq_refl) as [->|K]; [left; apply W; left; reflexivity|right; exact K].
  - destruct (seqb text label) eqn:SQ.
    + apply seqb_true in SQ. subst label. injection H as <- <-. exists Shortcut. split; [cbn [spell_how]; rewrite app_nil_r; reflexivity|].
      split; [cbn; intuition discriminate|]. apply W. left. reflexivity.
    + injection H as <- <-. exists (ByLabel label). split; [reflexivity|]. split; [|apply W; left; reflexivity].
      cbn [spell_how]. intro I. repeat (apply in_app_or in I; destruct I as [I|I]); try contradiction; destruct I as [I|[]]; discriminate I.
Qed.
Lemma opening_nul : forall image, ~ In c_nul (opening_bracket image).
Proof. intros [|]; cbn; intuition discriminate. Qed.
(** A copied text. *)
Lemma copied_lays : forall image im url t p cs inside source label out evs g next,
  extract_source src p = Ok (Some source) -> ~ In c_nul source -> labelled im inside source ->
  copied inside cs -> ~ In c_nul (normalize_whitespace inside) -> ~ In c_nul label ->
  (forall l, strip_prefix [c_soh] label = Some l -> l = normalize_whitespace inside \/ In c_soh source) -> all_used evs ->
  format_reference (opening_bracket image) (normalize_whitespace inside) label url t = Ok (out, evs) ->
  exists l, lays (Node (lv image url t) p cs) l /\ spell1 l = sub g out /\ ends_open (Node (lv image url t) p cs) l next.
Proof.
  intros image im url t p cs inside source label out evs g next X NS LB (body & S0 & SP & C) NT NL M W H.
  assert (LA : labelled_at p) by (exists source, im, inside; auto).
  assert (M' : forall l, strip_prefix [c_soh] label = Some l -> l = normalize_whitespace inside \/ marked_at p).
  { intros l Q. destruct (M l Q) as [K|K]; [left; exact K|right; exists source; auto]. }
  destruct (format_reference_how image p cs _ _ _ _ _ _ _ NT NL M' W H) as (h & -> & NH & HW).
  exists (LLink image body h url t). split; [apply lays_copied; [exact S0|exact C|right; exact LA|rewrite SP; exact HW]|]. split.
  - cbn [spell1]. fold (spell body). rewrite SP.
    rewrite !sub_app, (sub_free g _ (opening_nul image)), (sub_free g _ NT).
    rewrite <- (sub_app g [c_rbr] (spell_how h)), (sub_free g _ NH). reflexivity.
  - cbn [ends_open node_pos]. destruct h; try exact Logic.I. right. left. exact LA.
Qed.
Lemma sub_twice : forall g s, sub g (sub c_sp s) = sub c_sp s.
Proof. intros g s. apply sub_free, sub_gone. Qed.
Lemma simple_nul : forall cs, Forall simple cs -> ~ In c_nul (flat_map raw_text cs).
Proof.
  intros cs F I. apply in_flat_map in I. destruct I as (n & I & J). rewrite Forall_forall in F. specialize (F n I).
  unfold simple in F. destruct n as [v p ks]. cbn [node_value raw_text] in *. destruct v; try contradiction F.
  - rewrite Forall_forall in F. destruct (F _ J) as (_ & _ & K). exact (K eq_refl).
  - destruct J as [J|[]]. discriminate J.
Qed.
Lemma simple_lays : forall image url t p cs h next, title = true -> Forall simple cs ->
  how_written image p cs url t (flat_map raw_text cs) h ->
  exists l, lays (Node (lv image url t) p cs) l
    /\ spell1 l = opening_bracket image ++ flat_map raw_text cs ++ [c_rbr] ++ spell_how h /\ ends_open (Node (lv image url t) p cs) l next.
Proof.
  intros image url t p cs h next T F HW.
  assert (Q : Forall (fun c => special c = false /\ c <> c_amp /\ c <> c_nul) (flat_map raw_text cs)
              /\ map Chr (flat_map raw_text cs) = flat_map verbatim cs).
  { clear HW. induction F as [|[v q ks] cs Hn _ [IH1 IH2]]; [split; [constructor|reflexivity]|]. cbn [flat_map].
    unfold simple in Hn. cbn [node_value] in Hn. rewrite map_app, IH2.
    destruct v; try contradiction Hn; cbn [raw_text verbatim].
    - split; [apply Forall_app; split; assumption|reflexivity].
    - split; [|reflexivity]. cbn [app]. apply Forall_cons; [repeat split; discriminate|exact IH1]. }
  destruct Q as [Q1 Q2]. set (w := flat_map raw_text cs) in *.
  assert (PP : pieces ENT w = map Plain w).
  { clear - Q1. induction Q1 as [|c w (S0 & A & _) _ IH]; [reflexivity|]. rewrite pieces_plain; [cbn [map]; f_equal; exact IH| |exact A].
    intros ->. discriminate S0. }
  assert (SP : flat_map spelling (map Plain w) = w).
  { clear. induction w as [|c w IH]; [reflexivity|]. cbn [map flat_map spelling app]. f_equal. exact IH. }
  exists (LLink image [LText (map Plain w)] h url t). split; [|split].
  - apply lays_copied; [| |left; exact T|unfold spell; cbn [flat_map spell1]; rewrite app_nil_r, SP; exact HW].
    + cbn [sound sound1]. split; [|exact Logic.I]. split.
      * split; [rewrite SP; exact PP|]. intros c S0 I. apply in_map_iff in I. destruct I as (d & E & I).
        injection E as ->. rewrite Forall_forall in Q1. destruct (Q1 _ I) as (K & _). congruence.
      * intros c E. injection E as <-. reflexivity.
    + rewrite <- Q2. unfold contents. cbn [flat_map contents1]. rewrite app_nil_r. f_equal.
      clear. induction w as [|c w IH]; [reflexivity|]. cbn [map flat_map meaning app]. f_equal. exact IH.
  - cbn [spell1 flat_map]. rewrite app_nil_r, SP. reflexivity.
  - cbn [ends_open]. destruct h; try exact Logic.I. left. exact T.
Qed.
Lemma wret_ok : forall s out evs, wret s = Ok (out, evs) -> out = s.
Proof. intros s out evs H. unfold wret in H. congruence. Qed.
Lemma wuse_ok : forall s l u t out evs, wuse s l u t = Ok (out, evs) -> out = s.
Proof. intros s l u t out evs H. unfold wuse in H. congruence. Qed.
Lemma wret_is : forall s (y : str * list inline_event), wret s = Ok y -> y = (s, []).
Proof. intros s y H. unfold wret in H. congruence. Qed.
Lemma wuse_is : forall s l u t (y : str * list inline_event), wuse s l u t = Ok y -> y = (s, [EvUse (mkRef l u t)]).
Proof. intros s l u t y H. unfold wuse in H. congruence. Qed.
Lemma style_of : forall p source, extract_source src p = Ok (Some source) ->
  reference_style_of src p = Ok (reference_style source).
Proof. intros p source X. unfold reference_style_of. rewrite X. reflexivity. Qed.
Lemma in_title : title = true -> forall next n, collect next n = collect_text U ENT o src n.
Proof. intros T next n. unfold collect. rewrite T. reflexivity. Qed.
Lemma in_text : title = false -> forall next n, collect next n = collect_inline U ENT o src next n.
Proof. intros T next n. unfold collect. rewrite T. reflexivity. Qed.
Lemma title_link : forall next url t p cs out evs g content, title = true ->
  link_in_source false p cs url t content -> collect next (Node (NLink url t) p cs) = Ok (out, evs) -> all_used evs ->
  exists l, lays (Node (NLink url t) p cs) l /\ spell1 l = sub g out /\ ends_open (Node (NLink url t) p cs) l next.
Proof.
  intros next url t p cs out evs g content T (NU & NT & source & X & NS & K) H W. rewrite T in K.
  rewrite (in_title T) in H. cbn [collect_text] in H. rewrite (style_of p source X) in H. cbn [rbind] in H.
  destruct K as [(_ & inside & L & C)|(UL & F)].
  - destruct (style_labelled _ _ _ L NS) as (label & E & N1 & N2 & N3). rewrite E in H.
    exact (copied_lays false false url t p cs inside source label out evs g next X NS L C N1 N2 N3 W H).
  - rewrite (style_unlabelled _ (UL eq_refl)) in H. cbn [raw_text] in H. destruct (is_external_url url) eqn:EX.
    + pose proof (simple_nul cs F) as N1.
      unfold format_external_link, wuse in H. rewrite sub_replace, (sub_free c_sp _ N1) in H. injection H as <- <-.
      destruct (simple_lays false url t p cs Shortcut next T F) as (l & L & S1 & O1); [apply W; left; reflexivity|].
      exists l. split; [exact L|]. split; [|exact O1]. rewrite S1. cbn [spell_how opening_bracket]. rewrite (sub_free g); [rewrite !app_nil_r; reflexivity|].
      intros [I|I]; [discriminate I|]. apply in_app_or in I. destruct I as [I|[I|[]]]; [exact (N1 I)|discriminate I].
    + pose proof (simple_nul cs F) as N1.
      destruct (simple_lays false url t p cs (Inline url t) next T F) as (l & L & S1 & O1); [cbn; auto|].
      apply wret_ok in H. unfold format_inline_link in H. destruct (title_how url t NU NT) as [TH NH].
      exists l. split; [exact L|]. split; [|exact O1]. rewrite H, TH, S1, !(sub_app g [c_lbr]), sub_app, (sub_free g _ N1), (sub_free g _ NH). reflexivity.
Qed.
Lemma title_image : forall next url t p cs out evs g content, title = true ->
  link_in_source true p cs url t content -> collect next (Node (NImage url t) p cs) = Ok (out, evs) -> all_used evs ->
  exists l, lays (Node (NImage url t) p cs) l /\ spell1 l = sub g out /\ ends_open (Node (NImage url t) p cs) l next.
Proof.
  intros next url t p cs out evs g content T (NU & NT & source & X & NS & K) H W. rewrite T in K.
  rewrite (in_title T) in H. cbn [collect_text raw_text] in H. destruct K as [(K & _)|(_ & F)]; [discriminate K|].
  pose proof (simple_nul cs F) as N1. destruct (simple_lays true url t p cs (Inline url t) next T F) as (l & L & S1 & O1); [cbn; auto|].
  apply wret_ok in H. unfold format_inline_image in H. destruct (title_how url t NU NT) as [TH NH].
  exists l. split; [exact L|]. split; [|exact O1]. rewrite H, TH, S1, !(sub_app g [c_bang; c_lbr]), sub_app, (sub_free g _ N1), (sub_free g _ NH). reflexivity.
Qed.
Lemma kids_of : title = false -> forall cs,
  wcat (with_next (collect_inline U ENT o src) cs) = wcat (with_next collect cs).
Proof. intros T cs. unfold collect. rewrite T. reflexivity. Qed.
Lemma wbind_ok : forall a f x, wbind a f = Ok x -> exists y z, a = Ok y /\ f (fst y) = Ok z /\ x = (fst z, snd y ++ snd z).
Proof.
  intros [y|] f x H; [|discriminate]. unfold wbind in H. cbn [rbind] in H. destruct (f (fst y)) as [z|] eqn:E; [|discriminate].
  injection H as <-. exists y, z. auto.
Qed.
Lemma text_link : forall next url t p cs out evs g, title = false -> g = c_nul \/ g = c_sp -> Forall laid cs ->
  link_in_source false p cs url t (apart cs /\ Forall emphatic cs) -> collect next (Node (NLink url t) p cs) = Ok (out, evs) -> all_used evs ->
  exists l, lays (Node (NLink url t) p cs) l /\ spell1 l = sub g out /\ ends_open (Node (NLink url t) p cs) l next.
Proof.
  intros next url t p cs out evs g T G LD (NU & NT & source & X & NS & K) H W. rewrite T in K.
  rewrite (in_text T) in H. cbn [collect_inline] in H. rewrite (style_of p source X), (kids_of T) in H. cbn [rbind] in H.
  destruct K as [(inside & L & [I|I] & C)|[(inside & L & I & _ & A & E)|(UL & (A & E) & AU)]].
  - destruct (style_labelled _ _ _ L NS) as (label & ES & N1 & N2 & N3). rewrite ES, I in H.
    exact (copied_lays false false url t p cs inside source label out evs g next X NS L C N1 N2 N3 W H).
  - discriminate I.
  - destruct (style_labelled _ _ _ L NS) as (label & ES & N1 & N2 & N3). rewrite ES, I in H.
    apply wapp_ok in H. destruct H as (y & z & Hy & Hz & Q). apply wapp_ok in Hz. destruct Hz as ([k e] & z2 & Hk & Hz2 & Ez).
    apply wret_is in Hy. apply wuse_is in Hz2. subst y z2. subst z. cbn [fst snd] in Q. match type of Q with _ = (?a, ?b) => assert (out = a /\ evs = b) as [-> ->] by (split; congruence) end. apply all_used_app in W. destruct W as [_ W]. apply all_used_app in W. destruct W as [W1 W2].
    destruct (kids_lay cs k e g G LD E Hk W1) as (body & F & S0 & J0).
    assert (NA : ~ In c_nul (strip_marker label)).
    { unfold strip_marker. destruct (strip_prefix [c_soh] label) as [q|] eqn:SP; [|exact N2].
      intro J. apply N2. exact (strip_prefix_in _ _ _ SP _ J). }
    exists (LLink false body (ByLabel (strip_marker label)) url t). split; [apply (lays_link false url t p cs body _ F A J0); apply W2; left; reflexivity|]. split; [|exact Logic.I].
    cbn [spell1 spell_how opening_bracket]. fold (spell body). rewrite S0, !sub_app, (sub_free g _ NA). reflexivity.
  - rewrite (style_unlabelled _ UL) in H.
    destruct (existsb is_image cs) eqn:IM.
    + apply wapp_ok in H. destruct H as (y & z & Hy & Hz & Q). apply wapp_ok in Hz. destruct Hz as ([k e] & z2 & Hk & Hz2 & Ez).
      apply wret_is in Hy. apply wret_is in Hz2. subst y z2. subst z. cbn [fst snd] in Q. match type of Q with _ = (?a, ?b) => assert (out = a /\ evs = b) as [-> ->] by (split; congruence) end. apply all_used_app in W. destruct W as [_ W]. apply all_used_app in W. destruct W as [W _].
      destruct (kids_lay cs k e g G LD E Hk W) as (body & F & S0 & J0). destruct (title_how url t NU NT) as [TH NH].
      exists (LLink false body (Inline url t) url t). split; [apply (lays_link false url t p cs body _ F A J0); cbn; auto|]. split; [|exact Logic.I].
      change (spell1 (LLink false body (Inline url t) url t)) with ([c_lbr] ++ spell body ++ [c_rbr] ++ spell_how (Inline url t)).
      rewrite S0, TH, (sub_app g [c_lbr]), (sub_app g k), (sub_free g _ NH). reflexivity.
    + destruct (is_nil t && seqb (raw_text (Node (NLink url t) p cs)) url) eqn:AL.
      * apply andb_true_iff in AL. destruct AL as [TN RT]. apply is_nil_true in TN. apply seqb_true in RT. cbn [raw_text] in RT. subst t.
        apply wret_ok in H. unfold format_autolink in H. subst out. exists (LAngle url (Lnk false (map Chr url) url [])).
        split; [apply lays_auto; exact (AU eq_refl eq_refl RT)|]. split; [|exact Logic.I]. cbn [spell1]. rewrite !sub_app, (sub_free g _ NU). reflexivity.
      * destruct (is_external_url url) eqn:EX.
        -- apply wbind_ok in H. destruct H as ([k e] & z & Hk & Hz & Q). cbn [fst snd] in *.
           unfold format_external_link in Hz. rewrite sub_replace in Hz. apply wuse_is in Hz. subst z. cbn [fst snd] in Q. match type of Q with _ = (?a, ?b) => assert (out = a /\ evs = b) as [-> ->] by (split; congruence) end. apply all_used_app in W. destruct W as [W1 W2].
           destruct (kids_lay cs k e c_sp (or_intror eq_refl) LD E Hk W1) as (body & F & S0 & J0).
           exists (LLink false body (if next_starts_with_bracket next then Collapsed else Shortcut) url t).
           split; [apply (lays_link false url t p cs body _ F A J0); rewrite S0; destruct (next_starts_with_bracket next); [left|]; apply W2; left; reflexivity|].
           split; [|destruct (next_starts_with_bracket next) eqn:NX; [exact Logic.I|right; right; exact NX]].
           cbn [spell1 opening_bracket]. fold (spell body). rewrite S0, !sub_app, sub_twice.
           destruct (next_starts_with_bracket next); reflexivity.
        -- apply wbind_ok in H. destruct H as ([k e] & z & Hk & Hz & Q). cbn [fst snd] in *.
           apply wret_is in Hz. subst z. unfold format_inline_link in Q. cbn [fst snd] in Q. match type of Q with _ = (?a, ?b) => assert (out = a /\ evs = b) as [-> ->] by (split; congruence) end. apply all_used_app in W. destruct W as [W _].
           destruct (kids_lay cs k e g G LD E Hk W) as (body & F & S0 & J0). destruct (title_how url t NU NT) as [TH NH].
           exists (LLink false body (Inline url t) url t). split; [apply (lays_link false url t p cs body _ F A J0); cbn; auto|]. split; [|exact Logic.I].
           change (spell1 (LLink false body (Inline url t) url t)) with ([c_lbr] ++ spell body ++ [c_rbr] ++ spell_how (Inline url t)).
           rewrite S0, TH, (sub_app g [c_lbr]), (sub_app g k), (sub_free g _ NH). reflexivity.
Qed.
Lemma text_image : forall next url t p cs out evs g, title = false -> g = c_nul \/ g = c_sp -> Forall laid cs ->
  link_in_source true p cs url t (apart cs /\ Forall emphatic cs) -> collect next (Node (NImage url t) p cs) = Ok (out, evs) -> all_used evs ->
  exists l, lays (Node (NImage url t) p cs) l /\ spell1 l = sub g out /\ ends_open (Node (NImage url t) p cs) l next.
Proof.
  intros next url t p cs out evs g T G LD (NU & NT & source & X & NS & K) H W. rewrite T in K.
  rewrite (in_text T) in H. cbn [collect_inline] in H. rewrite (style_of p source X), (kids_of T) in H. cbn [rbind] in H.
  destruct K as [(inside & L & _ & C)|[(inside & L & I & Q & A & E)|(UL & (A & E) & _)]].
  - destruct (style_labelled _ _ _ L NS) as (label & ES & N1 & N2 & N3). rewrite ES in H.
    exact (copied_lays true true url t p cs inside source label out evs g next X NS L C N1 N2 N3 W H).
  - discriminate Q.
  - rewrite (style_unlabelled _ UL) in H. apply wbind_ok in H. destruct H as ([k e] & z & Hk & Hz & Q). cbn [fst snd] in *.
    apply wret_is in Hz. subst z. unfold format_inline_image in Q. cbn [fst snd] in Q. match type of Q with _ = (?a, ?b) => assert (out = a /\ evs = b) as [-> ->] by (split; congruence) end. apply all_used_app in W. destruct W as [W _].
    destruct (kids_lay cs k e g G LD E Hk W) as (body & F & S0 & J0). destruct (title_how url t NU NT) as [TH NH].
    exists (LLink true body (Inline url t) url t). split; [apply (lays_link true url t p cs body _ F A J0); cbn; auto|]. split; [|exact Logic.I].
    change (spell1 (LLink true body (Inline url t) url t)) with ([c_bang; c_lbr] ++ spell body ++ [c_rbr] ++ spell_how (Inline url t)).
    rewrite S0, TH, (sub_app g [c_bang; c_lbr]), (sub_app g k), (sub_free g _ NH). reflexivity.
Qed.

Lemma content_mono : forall image p cs url t (A B : Prop), (A -> B) -> link_in_source image p cs url t A -> link_in_source image p cs url t B.
Proof.
  intros image p cs url t A B I (NU & NT & source & X & NS & K). split; [exact NU|]. split; [exact NT|]. exists source.
  split; [exact X|]. split; [exact NS|]. destruct title; [exact K|]. destruct K as [K|[(inside & L & J & M & C)|(UL & C & AU)]].
  - left. exact K.
  - right. left. exists inside. auto.
  - right. right. auto.
Qed.
Lemma node_laid : forall n, laid n.
Proof.
  induction n as [v p cs IH] using node_ind'. intros next out evs g G E H W. cbn [emphatic] in E.
  assert (CM : (apart cs /\ (fix all (l : list node) : Prop := match l with [] => True | c :: r => emphatic c /\ all r end) cs) ->
               apart cs /\ Forall emphatic cs).
  { intros [A B]. split; [exact A|]. apply emphatic_all. exact B. }
  destruct v; try contradiction E.
  - rewrite (collect_is next) in H by reflexivity. destruct E as (NE & NN & T).
    destruct (text_lays p _ cs out evs NE NN T H) as (NO & l & L & S1). exists l. split; [exact L|]. rewrite (sub_free g _ NO). split; [exact S1|]. inversion L; subst; first [exact Logic.I|match goal with Q : lv ?i _ _ = _ |- _ => destruct i; discriminate Q end].
  - rewrite (collect_is next) in H by reflexivity. injection H as <- <-.
    exists (LBreak (if ceq soft c_nul then g else soft)). split; [|split; [reflexivity|exact Logic.I]].
    constructor. unfold soft. destruct title; [right; reflexivity|exact G].
  - rewrite (collect_is next) in H by (cbn [plain_node]; rewrite E; reflexivity). injection H as <- <-.
    exists (LBreak c_nl). split; [constructor|]. split; [reflexivity|exact Logic.I].
  - rewrite (collect_is next) in H by reflexivity. destruct E as (NN & C).
    destruct (code_lays p _ cs out evs NN C H) as (NO & l & L & S1). exists l. split; [exact L|]. rewrite (sub_free g _ NO). split; [exact S1|]. inversion L; subst; first [exact Logic.I|match goal with Q : lv ?i _ _ = _ |- _ => destruct i; discriminate Q end].
  - destruct E as (T & NN & s & ->). rewrite (in_text T) in H. cbn [collect_inline] in H. apply wret_ok in H. subst out.
    exists (LAngle s (Raw ([c_lt] ++ s ++ [c_gt]))). split; [constructor|]. split; [|exact Logic.I]. cbn [spell1]. rewrite (sub_free g _ NN). reflexivity.
  - rewrite (collect_is next) in H by reflexivity. destruct (CM E) as [A E'].
    destruct (emphasis_delimiter src (Node NEmph p cs)) as [d|] eqn:D; [|discriminate]. cbn [rbind] in H.
    apply wapp_ok in H. destruct H as (y & z & Hy & Hz & Q). apply wapp_ok in Hz.
    destruct Hz as ([z1 e1] & z2 & Hz1 & Hz2 & Ez). apply wret_is in Hy. apply wret_is in Hz2. subst y z2. subst z.
    cbn [fst snd] in Q. match type of Q with _ = (?a, ?b) => assert (out = a /\ evs = b) as [-> ->] by (split; congruence) end. apply all_used_app in W. destruct W as [_ W]. apply all_used_app in W. destruct W as [W _].
    destruct (kids_lay cs z1 e1 g G IH E' Hz1 W) as (ls & Ls & S0 & J0).
    pose proof (emphasis_delimiter_rule _ _ _ D) as DR. pose proof (emphasis_mark _ _ DR) as M.
    exists (LMark false d ls). split; [constructor; [exact DR|exact Ls|exact A|exact J0]|]. split; [|exact Logic.I].
    cbn [spell1 mark]. fold (spell ls). rewrite S0, !sub_app. rewrite (sub_free g [d]); [reflexivity|].
    intros [K|[]]. subst d. discriminate M.
  - rewrite (collect_is next) in H by reflexivity. destruct (CM E) as [A E'].
    destruct (strong_delimiter src (Node NStrong p cs)) as [d|] eqn:D; [|discriminate]. cbn [rbind] in H.
    apply wapp_ok in H. destruct H as (y & z & Hy & Hz & Q). apply wapp_ok in Hz.
    destruct Hz as ([z1 e1] & z2 & Hz1 & Hz2 & Ez). apply wret_is in Hy. apply wret_is in Hz2. subst y z2. subst z.
    cbn [fst snd] in Q. match type of Q with _ = (?a, ?b) => assert (out = a /\ evs = b) as [-> ->] by (split; congruence) end. apply all_used_app in W. destruct W as [_ W]. apply all_used_app in W. destruct W as [W _].
    destruct (kids_lay cs z1 e1 g G IH E' Hz1 W) as (ls & Ls & S0 & J0).
    destruct (strong_two _ _ D) as (c & ->).
    pose proof (strong_delimiter_rule _ _ _ D) as DR. pose proof (strong_mark _ _ DR) as M.
    exists (LMark true c ls). split; [constructor; [exact DR|exact Ls|exact A|exact J0]|]. split; [|exact Logic.I].
    cbn [spell1 mark]. fold (spell ls). rewrite S0, !sub_app. rewrite (sub_free g [c; c]); [reflexivity|].
    intros [K|[K|[]]]; subst c; discriminate M.
  - apply (content_mono _ _ _ _ _ _ _ CM) in E. destruct title eqn:T.
    + exact (title_link next _ _ p cs out evs g _ T E H W).
    + exact (text_link next _ _ p cs out evs g T G IH E H W).
  - apply (content_mono _ _ _ _ _ _ _ CM) in E. destruct title eqn:T.
    + exact (title_image next _ _ p cs out evs g _ T E H W).
    + exact (text_image next _ _ p cs out evs g T G IH E H W).
  - destruct E as (T & NN). rewrite (in_text T) in H. cbn [collect_inline] in H. apply wret_ok in H. subst out.
    exists (LNote name). split; [constructor|]. split; [|exact Logic.I]. cbn [spell1]. rewrite !sub_app, (sub_free g _ NN). reflexivity.
Qed.

Lemma says_of : forall image url t p cs xs, Forall2 says cs xs -> says (Node (lv image url t) p cs) [Lnk image (List.concat xs) url t].
Proof. intros [|] url t p cs xs F; [apply says_image|apply says_link]; exact F. Qed.
Lemma says_text_of : forall image url t p cs, says (Node (lv image url t) p cs) [Lnk image (flat_map verbatim cs) url t].
Proof. intros [|] url t p cs; constructor. Qed.

Lemma lays_ind' : forall P : node -> lay -> Prop,
  (forall t p cs ps, plain_text ENT ps -> ps <> [] -> flat_map meaning ps = transform_punctuation U o t -> P (Node (NText t) p cs) (LText ps)) ->
  (forall x p cs s, code_span s x -> P (Node (NCode x) p cs) (LCode s x)) ->
  (forall p cs c, c = c_nul \/ c = c_sp -> P (Node NSoftBreak p cs) (LBreak c)) ->
  (forall p cs, P (Node NLineBreak p cs) (LBreak c_nl)) ->
  (forall (strong : bool) p cs c body, is_mark c = true -> Forall2 lays cs body -> Forall2 P cs body -> apart cs ->
     P (Node (if strong then NStrong else NEmph) p cs) (LMark strong c body)) ->
  (forall image url t p cs body h, Forall2 lays cs body -> Forall2 P cs body -> apart cs ->
     P (Node (lv image url t) p cs) (LLink image body h url t)) ->
  (forall image url t p cs body h, sound ENT body (Some c_rbr) -> contents body = flat_map verbatim cs ->
     P (Node (lv image url t) p cs) (LLink image body h url t)) ->
  (forall url p cs, flat_map verbatim cs = map Chr url -> P (Node (NLink url []) p cs) (LAngle url (Lnk false (map Chr url) url []))) ->
  (forall s p cs, P (Node (NHtmlInline ([c_lt] ++ s ++ [c_gt])) p cs) (LAngle s (Raw ([c_lt] ++ s ++ [c_gt])))) ->
  (forall name p cs, P (Node (NFootnoteReference name) p cs) (LNote name)) ->
  forall n l, lays n l -> P n l.
Proof.
  intros P H1 H2 H3 H4 H5 H6 H7 H8 H9 H10.
  fix IH 3. intros n l L.
  destruct L as [t p cs ps A B C|x p cs s A|p cs c A|p cs|p cs c body M F A J|p cs c body M F A J|image url t p cs body h F A J W
                |image url t p cs body h A B J W|url p cs A|s p cs|name p cs];
    [apply H1; assumption|apply H2; assumption|apply H3; assumption|apply H4
    |apply (H5 false); [exact (emphasis_mark _ _ M)|exact F| |exact A]
    |apply (H5 true); [exact (strong_mark _ _ M)|exact F| |exact A]
    |apply H6; [exact F| |exact A]|apply H7; assumption|apply H8; assumption|apply H9|apply H10].
  - clear A M J. induction F; constructor; [apply IH; assumption|assumption].
  - clear A M J. induction F; constructor; [apply IH; assumption|assumption].
  - clear A J W. induction F; constructor; [apply IH; assumption|assumption].
Qed.

Lemma says_list : forall cs body, Forall2 (fun n l => says n (contents1 l)) cs body ->
  exists xs, Forall2 says cs xs /\ flat_map contents1 body = List.concat xs.
Proof.
  intros cs body F. induction F as [|n l cs ls H _ (xs & A & B)]; [exists []; split; [constructor|reflexivity]|].
  exists (contents1 l :: xs). split; [constructor; assumption|]. cbn [flat_map List.concat]. rewrite B. reflexivity.
Qed.
Lemma lays_says : forall n l, lays n l -> says n (contents1 l).
Proof.
  intros n l L. induction L as [t p cs ps A B C|x p cs s A|p cs c A|p cs|strong p cs c body M F FI A|image url t p cs body h F FI A
                |image url t p cs body h A B|url p cs A|s p cs|name p cs] using lays_ind'; cbn [contents1].
  - rewrite C. constructor.
  - constructor.
  - constructor. exact A.
  - constructor.
  - destruct (says_list _ _ FI) as (xs & X & E). rewrite E. destruct strong; constructor; exact X.
  - destruct (says_list _ _ FI) as (xs & X & E). rewrite E. apply says_of. exact X.
  - fold (contents body). rewrite B. apply says_text_of.
  - rewrite <- A. constructor.
  - constructor.
  - constructor.
Qed.

(** The first character written for a node. *)
Lemma lays_head : forall n l, lays n l -> exists c s, spell1 l = c :: s
  /\ (is_text n = false -> continues_reference c = false) /\ (is_code n = false -> c <> c_bt).
Proof.
  intros n l L. destruct L as [t p cs ps [P N] B C|x p cs s [[q ->] A]|p cs c A|p cs|p cs c body M F A J|p cs c body M F A J
                |image url t p cs body h F A J W|image url t p cs body h A B J W|url p cs A|s p cs|name p cs].
  - destruct (flat_map spelling ps) as [|c r] eqn:E; [destruct ps; [contradiction B; reflexivity|discriminate P]|].
    exists c, r. cbn [spell1]. split; [exact E|]. split; [discriminate|]. intros _ ->.
    destruct (first_piece_prefix ENT c_bt r) as (s' & F & _). rewrite (pieces_cons ENT _ _ _ F) in P.
    apply (N c_bt eq_refl). rewrite <- P. left. reflexivity.
  - exists c_bt, (q ++ [c_bt]). split; [reflexivity|]. split; [reflexivity|discriminate].
  - exists c, []. split; [reflexivity|]. destruct A as [->| ->]; (split; [reflexivity|discriminate]).
  - exists c_nl, []. split; [reflexivity|]. split; [reflexivity|discriminate].
  - apply emphasis_mark in M. exists c. eexists. split; [reflexivity|]. unfold is_mark in M. apply orb_true_iff in M.
    destruct M as [M|M]; apply ceq_true in M; subst c; split; reflexivity || discriminate.
  - apply strong_mark in M. exists c. eexists. split; [reflexivity|]. unfold is_mark in M. apply orb_true_iff in M.
    destruct M as [M|M]; apply ceq_true in M; subst c; split; reflexivity || discriminate.
  - destruct image; do 2 eexists; (split; [reflexivity|]); split; reflexivity || discriminate.
  - destruct image; do 2 eexists; (split; [reflexivity|]); split; reflexivity || discriminate.
  - do 2 eexists; (split; [reflexivity|]); split; reflexivity || discriminate.
  - do 2 eexists; (split; [reflexivity|]); split; reflexivity || discriminate.
  - do 2 eexists; (split; [reflexivity|]); split; reflexivity || discriminate.
Qed.
Definition harmless (after : option char) : Prop :=
  forall c, after = Some c -> continues_reference c = false /\ c <> c_bt.
Lemma mark_harmless : forall c, is_mark c = true -> harmless (Some c).
Proof.
  intros c M d E. injection E as <-. unfold is_mark in M. apply orb_true_iff in M.
  destruct M as [M|M]; apply ceq_true in M; subst c; split; reflexivity || discriminate.
Qed.
Lemma lays_sound_list : forall cs ls after, harmless after -> Forall2 lays cs ls -> apart cs ->
  Forall2 (fun n l => forall after,
     (is_text n = true -> forall c, after = Some c -> continues_reference c = false) ->
     (is_code n = true -> after <> Some c_bt) -> sound1 ENT l after) cs ls ->
  sound ENT ls after.
Proof.
  intros cs ls after HA F. induction F as [|n l cs ls L F IH]; intros A S0; [exact Logic.I|].
  destruct A as [A1 A2]. inversion S0 as [|? ? ? ? S1 S2]; subst. split; [|exact (IH A2 S2)]. apply S1.
  - intros T c E. destruct F as [|m l2 cs ls L2 F].
    + exact (proj1 (HA c E)).
    + destruct (lays_head _ _ L2) as (d & s & E2 & C & _). unfold spell in E. cbn [flat_map] in E. rewrite E2 in E.
      cbn [app next] in E. injection E as <-. apply C. rewrite T in A1. exact (proj1 A1).
  - intros T E. destruct F as [|m l2 cs ls L2 F].
    + exact (proj2 (HA _ E) eq_refl).
    + destruct (lays_head _ _ L2) as (d & s & E2 & _ & C). unfold spell in E. cbn [flat_map] in E. rewrite E2 in E.
      cbn [app next] in E. injection E as ->. apply C; [|reflexivity]. rewrite T in A1. exact (proj2 A1).
Qed.
Lemma lays_sound : forall n l, lays n l -> forall after,
  (is_text n = true -> forall c, after = Some c -> continues_reference c = false) ->
  (is_code n = true -> after <> Some c_bt) -> sound1 ENT l after.
Proof.
  intros n l L. induction L as [t p cs ps A B C|x p cs s A|p cs c A|p cs|strong p cs c body M F FI A|image url t p cs body h F FI A
                |image url t p cs body h A B|url p cs A|s p cs|name p cs] using lays_ind';
    intros after HT HC; cbn [sound1].
  - split; [exact A|]. apply HT. reflexivity.
  - split; [exact A|]. apply HC. reflexivity.
  - destruct A as [->| ->]; reflexivity.
  - reflexivity.
  - split; [exact M|]. apply sound_body. exact (lays_sound_list cs body (Some c) (mark_harmless c M) F A FI).
  - apply sound_body. apply (lays_sound_list cs body (Some c_rbr)); [|exact F|exact A|exact FI].
    intros c E. injection E as <-. split; [reflexivity|discriminate].
  - apply sound_body. exact A.
  - exact Logic.I.
  - exact Logic.I.
  - exact Logic.I.
Qed.

Lemma lays_list : forall cs ls, Forall2 lays cs ls -> apart cs ->
  (exists xs, Forall2 says cs xs /\ contents ls = List.concat xs) /\ sound ENT ls None.
Proof.
  intros cs ls F A. split.
  - apply says_list. clear - F. induction F as [|m l cs ls L _ IH]; constructor; [exact (lays_says m l L)|exact IH].
  - apply (lays_sound_list cs ls None); [discriminate|exact F|exact A|].
    clear - F. induction F as [|m l cs ls L _ IH]; constructor; [exact (lays_sound m l L)|exact IH].
Qed.
Theorem laid_out : forall cs out evs, Forall emphatic cs -> all_used evs ->
  wcat (with_next collect cs) = Ok (out, evs) -> exists ls, Forall2 lays cs ls /\ joined cs ls /\ spell ls = out.
Proof.
  intros cs out evs E W H.
  destruct (kids_lay _ _ _ c_nul (or_introl eq_refl) (proj2 (Forall_forall _ _) (fun n _ => node_laid n)) E H W) as (ls & F & S0 & J).
  exists ls. split; [exact F|]. split; [exact J|]. rewrite S0. apply sub_nul.
Qed.
End Doc.
