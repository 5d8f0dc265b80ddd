(** Sentence case of sentence case (C52). *)
From Coq Require Import Bool Arith NArith Lia ZifyBool ZifyNat ZifyN List.
From Verif Require Import Base BaseFacts OptsModel HeadingModel SpecHeading HeadingProof SpecCase CaseProof SpecSteady.
Import ListNotations.

Section Again.
Variable U : Uni.
Variable PN : list (str * str).
Variables user common : list str.
Variables lo up : char -> char.
Hypothesis L : simple_case U lo up.
Hypothesis HL : listed U PN.
Hypothesis HN : settled_nouns PN user.

Let find_noun := find_proper_noun U PN user common.
Let simple := process_word_simple U PN user common.
Let word := process_word U PN user common.

(** ** Words that differ in case only *)
Definition twin (a b : str) : Prop := map lo a = map lo b.
Lemma twin_refl : forall a, twin a a. Proof. reflexivity. Qed.
Lemma twin_sym : forall a b, twin a b -> twin b a. Proof. unfold twin. congruence. Qed.
Lemma twin_trans : forall a b c, twin a b -> twin b c -> twin a c. Proof. unfold twin. congruence. Qed.
Lemma twin_len : forall a b, twin a b -> List.length a = List.length b.
Proof. intros a b H. apply (f_equal (@List.length _)) in H. rewrite !map_length in H. exact H. Qed.
Lemma twin_app : forall a b c d, twin a b -> twin c d -> twin (a ++ c) (b ++ d).
Proof. unfold twin. intros. rewrite !map_app. congruence. Qed.
Lemma twin_cons : forall c d a b, twin (c :: a) (d :: b) <-> lo c = lo d /\ twin a b.
Proof. unfold twin. intros. cbn [map]. split; [intro H; injection H; auto|intros [-> ->]; reflexivity]. Qed.
Lemma twin_cons_l : forall c a s, twin (c :: a) s -> exists d b, s = d :: b /\ lo c = lo d /\ twin a b.
Proof. intros c a [|d b] H; [discriminate|]. apply twin_cons in H. exists d, b. auto. Qed.
Lemma twin_nil_l : forall s, twin [] s -> s = []. Proof. intros [|c s] H; [reflexivity|discriminate]. Qed.
Lemma twin_split : forall a b s, twin (a ++ b) s -> exists a' b', s = a' ++ b' /\ twin a a' /\ twin b b'.
Proof.
  induction a as [|c a IH]; intros b s H; [exists [], s; split; [reflexivity|]; split; [reflexivity|exact H]|].
  cbn [app] in H. apply twin_cons_l in H. destruct H as (d & s' & -> & Q & H). destruct (IH _ _ H) as (a' & b' & -> & A & B).
  exists (d :: a'), b'. split; [reflexivity|]. split; [apply twin_cons; auto|exact B].
Qed.
Lemma twin_rev : forall a b, twin a b -> twin (rev a) (rev b).
Proof. unfold twin. intros a b H. rewrite !map_rev, H. reflexivity. Qed.
Lemma twin_map : forall f, (forall c, lo (f c) = lo c) -> forall a, twin a (map f a).
Proof. intros f F a. unfold twin. rewrite map_map. apply map_ext. intro c. symmetry. apply F. Qed.

(** What a character is, case aside *)
Lemma alpha_same : forall c d, lo c = lo d -> u_alpha U c = u_alpha U d.
Proof. intros c d H. rewrite <- (sc_alpha_lo _ _ _ L c), <- (sc_alpha_lo _ _ _ L d), H. reflexivity. Qed.
Lemma alnum_same : forall c d, lo c = lo d -> u_alnum U c = u_alnum U d.
Proof. intros c d H. rewrite <- (sc_alnum_lo _ _ _ L c), <- (sc_alnum_lo _ _ _ L d), H. reflexivity. Qed.
Lemma fixed_same : forall c d, lo c = lo d -> u_alpha U c = false -> d = c.
Proof.
  intros c d H A. assert (B : u_alpha U d = false) by (rewrite <- (alpha_same _ _ H); exact A).
  destruct (sc_fixed _ _ _ L c A) as [A' _]. destruct (sc_fixed _ _ _ L d B) as [B' _]. congruence.
Qed.
Lemma sign_same : forall c d x, lo c = lo d -> u_alpha U x = false -> (c = x <-> d = x).
Proof. intros c d x H A. split; intros ->; [apply fixed_same with (c := x)|apply fixed_same with (c := x)]; auto. Qed.
Ltac sign := apply (sc_signs _ _ _ L); cbn [In]; tauto.
Lemma ceq_same : forall c d x, lo c = lo d -> u_alpha U x = false -> ceq c x = ceq d x.
Proof. intros c d x H A. apply eq_true_iff_eq. rewrite !ceq_true. apply sign_same; assumption. Qed.
Lemma ws_same : forall c d, lo c = lo d -> is_ws c = is_ws d.
Proof.
  intros c d H. destruct (is_ws c) eqn:E; [rewrite (fixed_same c d H (sc_space _ _ _ L c E)); congruence|].
  destruct (is_ws d) eqn:E'; [|reflexivity]. rewrite (fixed_same d c (eq_sym H) (sc_space _ _ _ L d E')) in E. congruence.
Qed.
Lemma delim_same : forall c d, lo c = lo d -> is_delim c = is_delim d.
Proof. intros c d H. unfold is_delim. rewrite !(ceq_same c d) by (exact H || sign). reflexivity. Qed.
Lemma twin_in : forall x a b, u_alpha U x = false -> twin a b -> In x a -> In x b.
Proof.
  intros x a. induction a as [|c a IH]; intros b A T I; [destruct I|]. destruct I as [I|I]; apply twin_cons_l in T; destruct T as (d & b' & -> & Q & T).
  - subst c. left. apply fixed_same; auto.
  - right. apply IH; assumption.
Qed.
Lemma contains_same : forall x a b, u_alpha U x = false -> twin a b -> contains_char x a = contains_char x b.
Proof.
  intros x a b A T. apply eq_true_iff_eq. rewrite !contains_char_true. split; apply twin_in; auto using twin_sym.
Qed.
Lemma fixed_all : forall a b, twin a b -> Forall (fun c => u_alnum U c = false) a -> b = a.
Proof.
  induction a as [|c a IH]; intros b T F; [apply twin_nil_l; exact T|]. apply twin_cons_l in T. destruct T as (d & b' & -> & Q & T).
  inversion F as [|? ? F1 F2]; subst. f_equal; [|apply IH; assumption]. apply fixed_same; [exact Q|].
  destruct (u_alpha U c) eqn:E; [|reflexivity]. rewrite (sc_alnum _ _ _ L c E) in F1. discriminate.
Qed.

(** ** Nouns *)
Let is_lead := fun c => negb (u_alnum U c || ceq c c_at).
Let body (w : str) : str := drop_while is_lead w.
Lemma lead_same : forall c d, lo c = lo d -> is_lead c = is_lead d.
Proof. intros c d H. unfold is_lead. rewrite (alnum_same c d H), (ceq_same c d c_at H) by sign. reflexivity. Qed.
Lemma lead_twin : forall a b, twin a b -> take_while is_lead b = take_while is_lead a /\ twin (body a) (body b).
Proof.
  induction a as [|c a IH]; intros b T; [rewrite (twin_nil_l _ T); split; reflexivity|]. apply twin_cons_l in T. destruct T as (d & b' & -> & Q & T).
  unfold body. cbn [take_while drop_while]. rewrite <- (lead_same c d Q). destruct (is_lead c) eqn:E.
  - destruct (IH _ T) as [I1 I2]. rewrite I1. split; [|exact I2]. f_equal. apply fixed_same; [exact Q|].
    unfold is_lead in E. destruct (u_alpha U c) eqn:A; [|reflexivity]. rewrite (sc_alnum _ _ _ L c A) in E. discriminate.
  - split; [reflexivity|]. apply twin_cons. auto.
Qed.
Definition ends_s (w : str) : Prop := exists r q, apostrophe_mark q /\ w = r ++ [q; 83%N].
Lemma body_suffix : forall w, exists l, w = l ++ body w.
Proof. intro w. exists (take_while is_lead w). symmetry. apply drop_while_app_take. Qed.
Lemma same_end : forall w w' p r, twin w w' -> ~ ends_s w' -> possessive p -> body w = r ++ p -> exists r', body w' = r' ++ p /\ twin r r'.
Proof.
  intros w w' p r T N P E. destruct (lead_twin _ _ T) as [_ B]. rewrite E in B. apply twin_split in B. destruct B as (r' & p' & E' & R & Tp).
  exists r'. split; [|exact R]. rewrite E'. f_equal.
  assert (G : forall q, apostrophe_mark q -> twin [q; 115%N] p' -> p' = [q; 115%N]).
  { intros q Mq H. apply twin_cons_l in H. destruct H as (d & b & -> & Q & H). apply twin_cons_l in H. destruct H as (e & b' & -> & Q2 & H).
    apply twin_nil_l in H. subst b'. assert (d = q) by (apply fixed_same; [exact Q|]; destruct Mq as [->| ->]; sign). subst d.
    destruct (sc_only_s _ _ _ L e (eq_sym Q2)) as [->| ->]; [reflexivity|]. exfalso. apply N. destruct (body_suffix w') as [l El].
    exists (l ++ r'), q. split; [exact Mq|]. etransitivity; [exact El|]. rewrite <- app_assoc. f_equal. exact E'. }
  destruct P as [->| ->]; apply G; try exact Tp; [left|right]; reflexivity.
Qed.
Lemma strip_twin : forall w w', twin w w' -> ~ ends_s w -> ~ ends_s w' ->
  exists stem stem' poss, strip_possessive (body w) = (stem, poss) /\ strip_possessive (body w') = (stem', poss) /\ twin stem stem'.
Proof.
  intros w w' T N N'. pose proof (same_end w w' [c_sq; c_s]) as A. pose proof (same_end w w' [c_rsq; c_s]) as B. unfold strip_possessive.
  assert (P1 : possessive [c_sq; c_s]) by (left; reflexivity). assert (P2 : possessive [c_rsq; c_s]) by (right; reflexivity).
  destruct (strip_suffix [c_sq; c_s] (body w)) as [r|] eqn:E1.
  - apply strip_suffix_some in E1. destruct (A _ T N' P1 E1) as (r' & E' & R). rewrite E'. 
    rewrite strip_suffix_app. exists r, r', [c_sq; c_s]. auto.
  - destruct (strip_suffix [c_sq; c_s] (body w')) as [r'|] eqn:E1'.
    { exfalso. apply strip_suffix_some in E1'. destruct (same_end w' w _ _ (twin_sym _ _ T) N P1 E1') as (r & E & _). rewrite E, strip_suffix_app in E1. discriminate. }
    destruct (strip_suffix [c_rsq; c_s] (body w)) as [r|] eqn:E2.
    + apply strip_suffix_some in E2. destruct (B _ T N' P2 E2) as (r' & E' & R). rewrite E', strip_suffix_app. exists r, r', [c_rsq; c_s]. auto.
    + destruct (strip_suffix [c_rsq; c_s] (body w')) as [r'|] eqn:E2'.
      { exfalso. apply strip_suffix_some in E2'. destruct (same_end w' w _ _ (twin_sym _ _ T) N P2 E2') as (r & E & _). rewrite E, strip_suffix_app in E2. discriminate. }
      exists (body w), (body w'), []. split; [reflexivity|]. split; [reflexivity|]. apply lead_twin. exact T.
Qed.
Lemma drop_twin : forall a b, twin a b -> let p := fun c => negb (u_alnum U c) in
  exists a1 b1 t, a = a1 ++ t /\ b = b1 ++ t /\ twin a1 b1 /\ drop_while_end p a = a1 /\ drop_while_end p b = b1.
Proof.
  intros a b T p. destruct (drop_while_end_app p a) as (t & E & F). rewrite E in T. apply twin_split in T. destruct T as (b1 & t' & -> & T1 & T2).
  assert (t' = t) by (apply fixed_all; [exact T2|eapply Forall_impl; [|exact F]; intros c Hc; apply negb_true_iff; exact Hc]). subst t'.
  exists (drop_while_end p a), b1, t. split; [exact E|]. split; [reflexivity|]. split; [exact T1|]. split; [reflexivity|].
  destruct (rev b1) as [|c r] eqn:Er.
  - apply (f_equal (@rev _)) in Er. rewrite rev_involutive in Er. subst b1. cbn [rev app]. unfold drop_while_end.
    rewrite drop_while_all by (apply Forall_rev; exact F). reflexivity.
  - apply (f_equal (@rev _)) in Er. rewrite rev_involutive in Er. cbn [rev] in Er. subst b1. rewrite <- app_assoc. apply drop_end_is; [|exact F].
    apply twin_sym, twin_split in T1. destruct T1 as (a2 & cs & Ea & _ & Tc). apply twin_cons_l in Tc. destruct Tc as (d & x & -> & Q & Tx). apply twin_nil_l in Tx. subst x.
    unfold p. rewrite (alnum_same c d Q). fold (p d). unfold drop_while_end in Ea. 
    destruct (drop_while p (rev a)) as [|e l] eqn:Ed; [destruct a2; discriminate Ea|]. cbn [rev] in Ea. apply app_inj_tail in Ea. destruct Ea as [_ <-].
    apply drop_while_head in Ed. exact Ed.
Qed.
Lemma lower_same : forall a b, twin a b -> u_lower_str U a = u_lower_str U b.
Proof. intros a b T. rewrite !(sc_lower _ _ _ L). exact T. Qed.
Lemma exists_alpha : forall a b, twin a b -> existsb (u_alpha U) a = existsb (u_alpha U) b.
Proof.
  induction a as [|c a IH]; intros b T; [rewrite (twin_nil_l _ T); reflexivity|]. apply twin_cons_l in T. destruct T as (d & b' & -> & Q & T).
  cbn [existsb]. rewrite (alpha_same _ _ Q), (IH _ T). reflexivity.
Qed.
Lemma find_twin : forall w w', twin w w' -> ~ ends_s w -> ~ ends_s w' -> find_noun w' = find_noun w.
Proof.
  intros w w' T N N'. unfold find_noun, find_proper_noun. fold is_lead. cbv zeta.
  destruct (lead_twin _ _ T) as [E1 _]. rewrite E1. destruct (strip_twin _ _ T N N') as (stem & stem' & poss & S1 & S2 & Ts). fold (body w) (body w'). rewrite S1, S2.
  destruct (drop_twin _ _ Ts) as (a1 & b1 & t & Ea & Eb & T1 & D1 & D2). cbv zeta in D1, D2. rewrite D1, D2.
  rewrite (lower_same _ _ T1), (exists_alpha _ _ T1).
  replace (skipn (List.length b1) stem') with t by (rewrite Eb, skipn_app, skipn_all, Nat.sub_diag; reflexivity).
  replace (skipn (List.length a1) stem) with t by (rewrite Ea, skipn_app, skipn_all, Nat.sub_diag; reflexivity).
  replace (is_nil b1) with (is_nil a1) by (pose proof (twin_len _ _ T1); destruct a1, b1; (reflexivity || discriminate)). reflexivity.
Qed.
(** What is found differs in case only. *)
Lemma noun_like : forall core n, known U PN user core n -> twin core n.
Proof.
  intros core n K. unfold twin. rewrite <- !(sc_lower _ _ _ L). destruct K as [n (a & b & _ & E & _)|p _ (a & b & E0 & E & _)]; [symmetry; exact E|].
  unfold listed in HL. rewrite Forall_forall in HL. symmetry. etransitivity; [|exact E]. symmetry. apply HL. rewrite E0. apply in_or_app. right. left. reflexivity.
Qed.
Lemma known_in : forall core n, known U PN user core n -> In n (map fst PN ++ user).
Proof.
  intros core n K. apply in_or_app. destruct K as [n (a & b & -> & _)|p _ (a & b & -> & _)].
  - right. apply in_or_app. right. left. reflexivity.
  - left. apply in_map. apply in_or_app. right. left. reflexivity.
Qed.
Lemma two_end : forall (r m : str) (q c : char), m <> [] -> forall x : str, x ++ m = r ++ [q; c] -> exists m', m = m' ++ [c].
Proof.
  intros r m q c NE x E. destruct (exists_last NE) as (m' & d & ->). exists m'. f_equal. f_equal.
  rewrite app_assoc in E. change [q; c] with ([q] ++ [c]) in E. rewrite (app_assoc r) in E. apply app_inj_tail in E. apply E.
Qed.
Lemma letter_83 : u_alnum U 83%N = true.
Proof.
  apply (sc_alnum _ _ _ L). rewrite <- (proj1 (sc_s _ _ _ L)). apply alpha_same. exact (eq_sym (sc_lo_ascii _ _ _ L 83%N)).
Qed.
Lemma found_like : forall w v, find_noun w = Some v -> twin w v /\ ~ ends_s v.
Proof.
  intros w v E. apply find_noun_iff in E. destruct E as (lead & core & trail & poss & n & D & _ & _ & K & ->).
  destruct D as (-> & _ & (c0 & r0 & Ec & _) & _ & Ft & Hp). pose proof (noun_like _ _ K) as T. split.
  - repeat apply twin_app; try apply twin_refl. exact T.
  - intros (r & q & Mq & E). destruct Hp as [Hp|[-> _]].
    + rewrite !app_assoc in E. destruct (two_end r poss q 83%N) with (x := ((lead ++ n) ++ trail)) as (m & Em); [destruct Hp; subst; discriminate|exact E|].
      destruct Hp as [->| ->]; destruct m as [|a [|b [|? ?]]]; discriminate Em.
    + rewrite app_nil_r in E. destruct trail as [|t0 tr].
      * rewrite app_nil_r in E. destruct (HN n (known_in _ _ K)) as [N1 N2].
        assert (NE : n <> []). { intros ->. apply twin_len in T. rewrite Ec in T. discriminate. }
        destruct (two_end _ _ _ _ NE _ E) as (m & ->). destruct m as [|a m]; [exact (N1 eq_refl)|].
        rewrite app_assoc in E. change [q; 83%N] with ([q] ++ [83%N]) in E. rewrite (app_assoc r) in E. apply app_inj_tail in E. destruct E as [E _].
        destruct (@exists_last _ (a :: m)) as (m' & d & Em); [discriminate|]. rewrite Em in *. rewrite app_assoc in E. apply app_inj_tail in E. destruct E as [_ ->].
        apply (N2 m' q 83%N Mq (or_intror eq_refl)). rewrite <- app_assoc. reflexivity.
      * rewrite app_assoc in E. destruct (two_end r (t0 :: tr) q 83%N) with (x := lead ++ n) as (m & Em); [discriminate|exact E|].
        rewrite Em in Ft. apply Forall_app in Ft. destruct Ft as [_ Ft]. inversion Ft as [|? ? F1 _]; subst. rewrite letter_83 in F1. discriminate.
Qed.

(** ** Words *)
Definition up1 (w : str) : bool := match w with c :: _ => u_upper U c | [] => false end.
Definition flags (f f2 : bool) (w w' : str) : Prop := f2 = f \/ f = up1 w /\ f2 = up1 w'.
Lemma no_f_twin : forall w w', twin w w' -> no_f w -> no_f w'.
Proof. intros w w' T N I. apply N. apply (twin_in c_fffd w' w); [sign|apply twin_sym; exact T|exact I]. Qed.
Lemma pronoun_iff : forall w w', pronoun_i w = Some w' <-> pronoun w w'.
Proof. apply (CaseProof.pronoun_iff U); [apply (sc_s _ _ _ L)|sign]. Qed.
Lemma pronoun_twin : forall w w', twin w w' -> pronoun_i w = None -> pronoun_i w' = None.
Proof.
  intros w w' T H. destruct (pronoun_i w') as [v|] eqn:E; [exfalso|reflexivity]. apply pronoun_iff in E.
  assert (G : exists x, pronoun w x).
  { destruct E as [i Hi|i q r Hi Hq]; apply twin_sym, twin_cons_l in T; destruct T as (d & b & -> & Q & T).
    - apply twin_nil_l in T. subst b. exists [73%N]. apply pronoun_alone. apply (sc_only_i _ _ _ L). rewrite <- Q.
      destruct Hi as [->| ->]; [reflexivity|]. exact (eq_sym (sc_lo_ascii _ _ _ L 73%N)).
    - apply twin_cons_l in T. destruct T as (e & b' & -> & Q2 & T). assert (e = q) by (apply fixed_same; [exact Q2|]; destruct Hq as [->| ->]; sign). subst e.
      eexists. apply pronoun_with; [|exact Hq]. apply (sc_only_i _ _ _ L). rewrite <- Q.
      destruct Hi as [->| ->]; [reflexivity|]. exact (eq_sym (sc_lo_ascii _ _ _ L 73%N)). }
  destruct G as (x & G). apply pronoun_iff in G. congruence.
Qed.
Lemma not_83 : forall c, ascii_lower c <> 83%N.
Proof. intros c. unfold ascii_lower, is_ascii_upper. destruct ((65 <=? c) && (c <=? 90))%N eqn:E; lia. Qed.
Lemma lower_twice : forall c, ascii_lower (ascii_lower c) = ascii_lower c.
Proof. intro c. unfold ascii_lower at 1, is_ascii_upper. destruct ((65 <=? ascii_lower c) && (ascii_lower c <=? 90))%N eqn:E; [|reflexivity].
  unfold ascii_lower, is_ascii_upper in *. destruct ((65 <=? c) && (c <=? 90))%N eqn:E'; lia. Qed.
Lemma capital_twin : forall w, twin w (capitalize_first U w).
Proof.
  intros [|c r]; [reflexivity|]. cbn [capitalize_first]. rewrite (sc_upper _ _ _ L), (sc_lower _ _ _ L). cbn [app]. apply twin_cons. split; [symmetry; apply (sc_lo_up _ _ _ L)|].
  apply twin_map. apply (sc_lo_lo _ _ _ L).
Qed.
Lemma lower_twin : forall w, twin w (u_lower_str U w).
Proof. intro w. rewrite (sc_lower _ _ _ L). apply twin_map. apply (sc_lo_lo _ _ _ L). Qed.
Lemma lo_83 : forall c, lo c <> 83%N.
Proof.
  intros c E. assert (H : lo (lo c) = 115%N). { rewrite E. etransitivity; [symmetry; apply (sc_lo_ascii _ _ _ L)|]. exact (proj2 (sc_s _ _ _ L)). }
  rewrite (sc_lo_lo _ _ _ L), E in H. discriminate.
Qed.
Lemma last_83 : forall r q (l : str), apostrophe_mark q -> map lo l <> r ++ [q; 83%N].
Proof.
  intros r q l _ E. assert (I : In 83%N (map lo l)) by (rewrite E; apply in_or_app; right; right; left; reflexivity).
  apply in_map_iff in I. destruct I as (c & E' & _). exact (lo_83 c E').
Qed.
Lemma capital_end : forall w, ~ ends_s (capitalize_first U w).
Proof.
  intros [|c r] (x & q & Mq & E); [destruct x; discriminate|]. cbn [capitalize_first] in E. rewrite (sc_upper _ _ _ L), (sc_lower _ _ _ L) in E. cbn [app] in E.
  destruct x as [|y x].
  - cbn [app] in E. injection E as _ E. destruct r as [|d [|e r]]; try discriminate. cbn [map] in E. injection E as E. exact (lo_83 d E).
  - injection E as _ E. exact (last_83 _ _ _ Mq E).
Qed.
Lemma simple_again : forall f w, no_f w -> ~ ends_s w -> let w' := simple f w in
  twin w w' /\ ~ ends_s w' /\ forall f2, flags f f2 w w' -> simple f2 w' = w'.
Proof.
  intros f w N Ns. cbv zeta. unfold simple, process_word_simple. fold find_noun.
  destruct w as [|c r]; [cbn [is_nil]; split; [reflexivity|]; split; [intros (x & q & _ & E); destruct x; discriminate|reflexivity]|].
  set (w := c :: r) in *. replace (is_nil w) with false by reflexivity.
  replace (contains_char c_fffd w) with false by (symmetry; apply contains_char_false; exact N).
  destruct (all_upper U w) eqn:Eu; [|destruct (is_acronym U w) eqn:Ea].
  1,2: split; [reflexivity|]; split; [exact Ns|]; intros f2 _; replace (is_nil w) with false by reflexivity;
    replace (contains_char c_fffd w) with false by (symmetry; apply contains_char_false; exact N); rewrite Eu, ?Ea; reflexivity.
  assert (Go : forall v, twin w v -> ~ ends_s v -> (forall f2, flags f f2 w v ->
      match pronoun_i v with Some x => x | None => match find_noun v with Some x => x | None => if f2 then capitalize_first U v else u_lower_str U v end end = v) ->
    twin w v /\ ~ ends_s v /\ forall f2, flags f f2 w v -> (if is_nil v then [] else if contains_char c_fffd v then v else if all_upper U v then v else if is_acronym U v then v else
      match pronoun_i v with Some x => x | None => match find_noun v with Some x => x | None => if f2 then capitalize_first U v else u_lower_str U v end end) = v).
  { intros v T Nv H. split; [exact T|]. split; [exact Nv|]. intros f2 Hf. destruct (is_nil v) eqn:En; [apply is_nil_true in En; congruence|].
    destruct (contains_char c_fffd v); [reflexivity|]. destruct (all_upper U v); [reflexivity|]. destruct (is_acronym U v); [reflexivity|]. exact (H f2 Hf). }
  destruct (pronoun_i w) as [v|] eqn:Ep.
  { apply Go; apply pronoun_iff in Ep.
    - destruct Ep as [i Hi|i q r0 Hi Hq].
      + apply twin_cons. split; [|reflexivity]. destruct Hi as [->| ->]; [exact (sc_lo_ascii _ _ _ L 73%N)|reflexivity].
      + apply twin_cons. split; [destruct Hi as [->| ->]; [exact (sc_lo_ascii _ _ _ L 73%N)|reflexivity]|]. apply twin_cons. split; [reflexivity|].
        apply twin_map. apply (sc_lo_ascii _ _ _ L).
    - intros (x & q1 & Mq & E). destruct Ep as [i Hi|i q r0 Hi Hq]; [destruct x as [|? [|? ?]]; discriminate E|].
      destruct x as [|a x]; [cbn [app] in E; injection E as E1 E2; destruct Mq as [->| ->]; discriminate E1|]. cbn [app] in E. injection E as _ E.
      destruct x as [|b x]; [cbn [app] in E; injection E as _ E; destruct r0 as [|d [|? ?]]; try discriminate E; cbn [map] in E; injection E as E; exact (not_83 d E)|].
      cbn [app] in E. injection E as _ E. assert (I : In 83%N (map ascii_lower r0)) by (rewrite E; apply in_or_app; right; right; left; reflexivity).
      apply in_map_iff in I. destruct I as (d & Ed & _). exact (not_83 d Ed).
    - intros f2 _. assert (P : pronoun_i v = Some v).
      { apply pronoun_iff. destruct Ep as [i Hi|i q r0 Hi Hq]; [apply pronoun_alone; right; reflexivity|].
        replace (map ascii_lower r0) with (map ascii_lower (map ascii_lower r0)) at 2 by (rewrite map_map; apply map_ext; apply lower_twice).
        apply pronoun_with; [right; reflexivity|exact Hq]. }
      rewrite P. reflexivity. }
  change (find_proper_noun U PN user common w) with (find_noun w).
  destruct (find_noun w) as [v|] eqn:Ef.
  { destruct (found_like _ _ Ef) as [T Nv]. apply Go; [exact T|exact Nv|]. intros f2 _. rewrite (pronoun_twin _ _ T Ep), (find_twin _ _ T Ns Nv), Ef. reflexivity. }
  set (v := if f then capitalize_first U w else u_lower_str U w).
  assert (T : twin w v) by (unfold v; destruct f; [apply capital_twin|apply lower_twin]).
  assert (Nv : ~ ends_s v).
  { unfold v. destruct f; [apply capital_end|]. intros (x & q & Mq & E). rewrite (sc_lower _ _ _ L) in E. exact (last_83 _ _ _ Mq E). }
  apply Go; [exact T|exact Nv|]. intros f2 Hf. rewrite (pronoun_twin _ _ T Ep), (find_twin _ _ T Ns Nv), Ef.
  assert (E2 : f2 = f).
  { destruct Hf as [Hf|[H1 H2]]; [exact Hf|]. rewrite H2. unfold v, w in *. cbn [up1] in H1. destruct f.
    - cbn [capitalize_first]. rewrite (sc_upper _ _ _ L). cbn [app up1]. apply (sc_capital _ _ _ L). symmetry. exact H1.
    - rewrite (sc_lower _ _ _ L). cbn [map up1]. apply (sc_small _ _ _ L). symmetry. exact H1. }
  rewrite E2. unfold v, w. destruct f.
  - cbn [capitalize_first]. rewrite !(sc_upper _ _ _ L), !(sc_lower _ _ _ L). cbn [app capitalize_first]. rewrite !(sc_upper _ _ _ L), !(sc_lower _ _ _ L), (sc_up_up _ _ _ L), map_map.
    cbn [app]. f_equal. apply map_ext. apply (sc_lo_lo _ _ _ L).
  - rewrite !(sc_lower _ _ _ L), map_map. apply map_ext. apply (sc_lo_lo _ _ _ L).
Qed.
(** *** Compounds *)
Lemma no_end : forall w, no_capital_s w -> ~ ends_s w.
Proof. intros w H (r & q & Mq & E). exact (H r q [] Mq E). Qed.
Lemma join_ends : forall c, c <> 83%N -> ~ apostrophe_mark c -> forall qs, Forall (fun q => ~ ends_s q) qs -> ~ ends_s (join [c] qs).
Proof.
  intros c C1 C2 qs F. induction F as [|x l X F IH]; [intros (r & q & _ & E); destruct r; discriminate|]. destruct l as [|y l]; [exact X|].
  rewrite join_cons. intros (r & q & Mq & E). rewrite app_assoc in E. apply app_eq_app in E. destruct E as (z & [[E1 E2]|[E1 E2]]).
  - destruct z as [|z0 z].
    + cbn [app] in E2. apply IH. exists [], q. split; [exact Mq|]. symmetry. exact E2.
    + destruct z as [|z1 z].
      * injection E2 as <- E2. apply app_inj_tail in E1. destruct E1 as [_ ->]. contradiction.
      * injection E2 as <- <- E2. symmetry in E2. apply app_eq_nil in E2. destruct E2 as [-> _]. change [q; 83%N] with ([q] ++ [83%N]) in E1. rewrite (app_assoc r) in E1.
        apply app_inj_tail in E1. destruct E1 as [_ E1]. contradiction.
  - apply IH. exists z, q. auto.
Qed.
Lemma join_twin : forall c ps qs, Forall2 twin ps qs -> twin (join [c] ps) (join [c] qs).
Proof.
  intros c ps qs F. induction F as [|p q ps qs T F IH]; [reflexivity|]. destruct F as [|p' q' ps qs T' F]; [exact T|]. rewrite !join_cons.
  apply twin_app; [exact T|]. apply twin_app; [reflexivity|exact IH].
Qed.
Lemma rest_again : forall ps, Forall (fun p => no_f p /\ ~ ends_s p) ps -> let qs := map (simple false) ps in
  Forall2 twin ps qs /\ Forall (fun q => ~ ends_s q) qs /\ map (simple false) qs = qs.
Proof.
  intros ps F. cbv zeta. induction F as [|p ps [P1 P2] F (I1 & I2 & I3)]; [repeat split; constructor|]. cbn [map].
  destruct (simple_again false p P1 P2) as (A & B & C). split; [constructor; assumption|]. split; [constructor; assumption|]. f_equal; [apply C; left; reflexivity|exact I3].
Qed.
Lemma parts_again : forall f ps, ps <> [] -> Forall (fun p => no_f p /\ ~ ends_s p) ps -> let qs := process_parts U PN user common f ps in
  Forall2 twin ps qs /\ Forall (fun q => ~ ends_s q) qs /\ forall f2 c w w', w = join [c] ps -> w' = join [c] qs -> flags f f2 w w' -> process_parts U PN user common f2 qs = qs.
Proof.
  intros f [|p ps] NE F; [contradiction NE; reflexivity|]. inversion F as [|? ? [P1 P2] F2]; subst. cbv zeta. cbn [process_parts]. fold simple.
  destruct (simple_again f p P1 P2) as (A & B & C). destruct (rest_again ps F2) as (I1 & I2 & I3). cbv zeta in *.
  split; [constructor; assumption|]. split; [constructor; assumption|]. intros f2 c w w' Ew Ew' Hf. cbn [process_parts]. fold simple. f_equal; [|exact I3].
  destruct p as [|d p]; [reflexivity|]. destruct (simple f (d :: p)) as [|e q] eqn:Eq; [apply twin_sym, twin_nil_l in A; discriminate|].
  apply C. destruct Hf as [Hf|[H1 H2]]; [left; exact Hf|right]. subst w w'. split; [rewrite H1|rewrite H2].
  - destruct ps; reflexivity.
  - destruct (map (simple false) ps); reflexivity.
Qed.
Lemma split_sub : forall c s p, In p (split_on c s) -> exists a b, s = a ++ p ++ b.
Proof.
  intros c s p I. pose proof (join_split_on c s) as E. revert E I. generalize (split_on c s). intro l. revert s. induction l as [|x l IH]; intros s E I; [destruct I|].
  destruct l as [|y l].
  - destruct I as [->|[]]. exists [], []. rewrite app_nil_r. symmetry. exact E.
  - rewrite join_cons in E. destruct I as [->|I]; [exists [], ([c] ++ join [c] (y :: l)); symmetry; exact E|].
    destruct (IH _ eq_refl I) as (a & b & E'). exists (x ++ [c] ++ a), b. rewrite <- E, E', !app_assoc. reflexivity.
Qed.
Lemma capital_sub : forall a b c, no_capital_s (a ++ b ++ c) -> no_capital_s b.
Proof. intros a b c H x q y Mq E. apply (H (a ++ x) q (y ++ c) Mq). rewrite E, <- !app_assoc. reflexivity. Qed.
Lemma word_again : forall f w, no_f w -> no_capital_s w -> let w' := word f w in
  twin w w' /\ forall f2, flags f f2 w w' -> word f2 w' = w'.
Proof.
  intros f w N Ns. cbv zeta. remember (word f w) as x0 eqn:Ex. unfold word, process_word in Ex. cbv zeta in Ex. change (find_proper_noun U PN user common w) with (find_noun w) in Ex.
  assert (Sep : forall x c, (c = c_dash \/ c = c_slash) -> contains_char c w = true -> (contains_char c_dash w || contains_char c_slash w) = true ->
     (if contains_char c_dash w then c_dash else c_slash) = c -> find_noun w = None -> x = join [c] (process_parts U PN user common f (split_on c w)) ->
     twin w x /\ forall f2, flags f f2 w x -> word f2 x = x).
  { intros x c Hc Cc Co Ci Fn ->.
    assert (Al : u_alpha U c = false) by (destruct Hc as [->| ->]; sign).
    assert (F : Forall (fun p => no_f p /\ ~ ends_s p) (split_on c w)).
    { apply Forall_forall. intros p I. split; [apply (proj1 (Forall_forall _ _) (parts_no_f c w N)); exact I|]. apply no_end.
      destruct (split_sub _ _ _ I) as (a & b & E). rewrite E in Ns. exact (capital_sub _ _ _ Ns). }
    destruct (parts_again f _ (split_on_nonempty c w) F) as (T & Ne & G). cbv zeta in *. set (qs := process_parts U PN user common f (split_on c w)) in *.
    assert (Tw : twin w (join [c] qs)) by (rewrite <- (join_split_on c w) at 1; apply join_twin; exact T).
    split; [exact Tw|]. intros f2 Hf. unfold word, process_word. cbv zeta.
    change (find_proper_noun U PN user common (join [c] qs)) with (find_noun (join [c] qs)).
    rewrite <- (contains_same c_dash _ _) with (1 := proj1 (sc_signs _ _ _ L c_dash ltac:(cbn [In]; tauto))) (2 := Tw).
    rewrite <- (contains_same c_slash _ _) with (1 := proj1 (sc_signs _ _ _ L c_slash ltac:(cbn [In]; tauto))) (2 := Tw).
    rewrite Co. rewrite (find_twin w _ Tw); [|apply no_end; exact Ns|apply join_ends; [destruct Hc as [->| ->]; discriminate|unfold apostrophe_mark; destruct Hc as [->| ->]; intros [K|K]; discriminate K|exact Ne]].
    rewrite Fn. 
    assert (Sp : process_parts U PN user common f2 (split_on c (join [c] qs)) = qs).
    { rewrite split_on_join.
      - apply (G f2 c w (join [c] qs)); [symmetry; apply join_split_on|reflexivity|exact Hf].
      - intro K. rewrite K in T. inversion T as [E|]. exact (split_on_nonempty c w (eq_sym E)).
      - pose proof (split_on_forall c w) as Fa. clear - T Fa L Al. induction T as [|p q ps qs T F IH]; [constructor|]. inversion Fa as [|? ? F1 F2]; subst. constructor; [|apply IH; exact F2].
        apply Forall_forall. intros y I ->. rewrite Forall_forall in F1. apply (F1 c); [|reflexivity]. apply (twin_in c q p Al); [apply twin_sym; exact T|exact I]. }
    destruct (contains_char c_dash w) eqn:Ed.
    - subst c. f_equal. exact Sp.
    - subst c. rewrite Cc. f_equal. exact Sp. }
  destruct (contains_char c_dash w) eqn:Ed; [|destruct (contains_char c_slash w) eqn:Es]; cbn [orb] in *.
  1,2: destruct (find_noun w) as [v|] eqn:Fn; [subst x0|eapply Sep; [| |reflexivity|reflexivity|reflexivity|exact Ex]; auto].
  1,2: destruct (found_like _ _ Fn) as [T Nv]; split; [exact T|]; intros f2 _; unfold word, process_word; cbv zeta; change (find_proper_noun U PN user common v) with (find_noun v);
    rewrite <- (contains_same c_dash _ _) with (1 := proj1 (sc_signs _ _ _ L c_dash ltac:(cbn [In]; tauto))) (2 := T);
    rewrite <- (contains_same c_slash _ _) with (1 := proj1 (sc_signs _ _ _ L c_slash ltac:(cbn [In]; tauto))) (2 := T);
    rewrite ?Ed, ?Es; cbn [orb]; rewrite (find_twin _ _ T (no_end _ Ns) Nv), Fn; reflexivity.
  destruct (simple_again f w N (no_end _ Ns)) as (T & Nv & G). cbv zeta in *. change (process_word_simple U PN user common f w) with (simple f w) in Ex. subst x0.
  split; [exact T|]. intros f2 Hf. unfold word, process_word. cbv zeta. set (v := simple f w) in *.
  rewrite <- (contains_same c_dash _ _) with (1 := proj1 (sc_signs _ _ _ L c_dash ltac:(cbn [In]; tauto))) (2 := T).
  rewrite <- (contains_same c_slash _ _) with (1 := proj1 (sc_signs _ _ _ L c_slash ltac:(cbn [In]; tauto))) (2 := T).
  rewrite Ed, Es. cbn [orb]. exact (G f2 Hf).
Qed.

(** ** Text *)
Let chars := process_chars U PN user common.
Lemma chars_word : forall w cur count first after s, Forall (fun c => is_ws c = false /\ is_delim c = false) w ->
  chars cur count first after (w ++ s) = chars (rev w ++ cur) count first after s.
Proof.
  induction w as [|c w IH]; intros cur count first after s F; [reflexivity|]. inversion F as [|? ? [F1 F2] F3]; subst. cbn [app]. unfold chars. cbn [process_chars]. fold chars.
  rewrite F1, F2. etransitivity; [apply IH; exact F3|]. cbn [rev]. rewrite <- app_assoc. reflexivity.
Qed.
Lemma wordly : forall w v, twin w v -> Forall (fun c => is_ws c = false /\ is_delim c = false) w -> Forall (fun c => is_ws c = false /\ is_delim c = false) v.
Proof.
  induction w as [|c w IH]; intros v T F; [rewrite (twin_nil_l _ T); constructor|]. apply twin_cons_l in T. destruct T as (d & b & -> & Q & T). inversion F as [|? ? [F1 F2] F3]; subst.
  constructor; [|apply IH; assumption]. rewrite <- (ws_same c d Q), <- (delim_same c d Q). auto.
Qed.
Lemma twin_not_nil : forall w v, twin w v -> w <> [] -> is_nil (rev v) = false.
Proof. intros w v T NE. destruct (rev v) eqn:E; [|reflexivity]. apply (f_equal (@rev _)) in E. rewrite rev_involutive in E. subst v. apply twin_sym, twin_nil_l in T. contradiction. Qed.
Lemma chars_again : forall s cur count first after out f, no_f (rev cur ++ s) -> no_capital_s (rev cur ++ s) ->
  Forall (fun c => is_ws c = false /\ is_delim c = false) (rev cur) ->
  chars cur count first after s = (out, f) -> twin (rev cur ++ s) out /\ chars [] count first after out = (out, f).
Proof.
  induction s as [|c r IH]; intros cur count first after out f N Ns F E; unfold chars in E; cbn [process_chars] in E; fold chars in E.
  - rewrite app_nil_r in *. destruct (is_nil cur) eqn:En.
    + apply is_nil_true in En. subst cur. injection E as <- <-. split; reflexivity.
    + injection E as <- <-. set (fl := should_capitalize U count first after (rev cur)). change (process_word U PN user common fl (rev cur)) with (word fl (rev cur)).
      destruct (word_again fl (rev cur) N Ns) as [T G]. cbv zeta in *. set (v := word fl (rev cur)) in *. split; [exact T|].
      rewrite <- (app_nil_r v) at 1. rewrite (chars_word v [] count first after []) by (apply (wordly _ _ T); exact F). rewrite app_nil_r. unfold chars. cbn [process_chars].
      rewrite (twin_not_nil _ _ T) by (intro K; apply (f_equal (@rev _)) in K; rewrite rev_involutive in K; subst cur; discriminate). rewrite rev_involutive. f_equal.
      apply G. unfold flags, fl, should_capitalize. destruct ((count =? 0) && first); [left; reflexivity|]. destruct after; [|left; reflexivity]. right. split; reflexivity.
  - assert (Rest : no_f (rev cur ++ c :: r) -> no_f (rev cur) /\ no_f r).
    { intro X. split; intro I; apply X; apply in_or_app; [left|right; right]; exact I. }
    destruct (Rest N) as [N1 N2]. assert (S1 : no_capital_s (rev cur)) by (apply (capital_sub [] _ (c :: r)); exact Ns).
    assert (S2 : no_capital_s r) by (apply (capital_sub (rev cur ++ [c]) _ []); rewrite app_nil_r, <- app_assoc; exact Ns).
    destruct (is_ws c) eqn:Ew; [|destruct (is_delim c) eqn:Ed].
    + destruct (is_nil cur) eqn:En.
      * apply is_nil_true in En. subst cur. destruct (chars [] count first after r) as [o g] eqn:Er. injection E as <- <-.
        destruct (IH [] _ _ _ _ _ N2 S2 F Er) as [T G]. cbn [rev app] in *. split; [apply twin_cons; auto|]. unfold chars. cbn [process_chars]. fold chars. rewrite Ew. cbn [is_nil]. rewrite G. reflexivity.
      * set (fl := should_capitalize U count first after (rev cur)) in *. change (process_word U PN user common fl (rev cur)) with (word fl (rev cur)) in E.
        destruct (word_again fl (rev cur) N1 S1) as [T G]. cbv zeta in *. set (v := word fl (rev cur)) in *.
        destruct (chars [] (S count) false false r) as [o g] eqn:Er. injection E as <- <-.
        destruct (IH [] _ _ _ _ _ N2 S2 (Forall_nil _) Er) as [T2 G2]. cbn [rev app] in T2. split; [apply twin_app; [exact T|apply twin_cons; auto]|].
        rewrite chars_word by (apply (wordly _ _ T); exact F). rewrite app_nil_r. unfold chars. cbn [process_chars]. fold chars. rewrite Ew.
        rewrite (twin_not_nil _ _ T) by (intro K; apply (f_equal (@rev _)) in K; rewrite rev_involutive in K; subst cur; discriminate). rewrite rev_involutive, G2.
        f_equal. f_equal. apply G. unfold flags, fl, should_capitalize. destruct ((count =? 0) && first); [left; reflexivity|]. destruct after; [|left; reflexivity]. right. split; reflexivity.
    + destruct (is_nil cur) eqn:En.
      * apply is_nil_true in En. subst cur. destruct (chars [] count first true r) as [o g] eqn:Er. injection E as <- <-.
        destruct (IH [] _ _ _ _ _ N2 S2 F Er) as [T G]. cbn [rev app] in *. split; [apply twin_cons; auto|]. unfold chars. cbn [process_chars]. fold chars. rewrite Ew, Ed. cbn [is_nil]. rewrite G. reflexivity.
      * set (fl := (count =? 0) && first) in *. change (process_word U PN user common fl (rev cur)) with (word fl (rev cur)) in E.
        destruct (word_again fl (rev cur) N1 S1) as [T G]. cbv zeta in *. set (v := word fl (rev cur)) in *.
        destruct (chars [] (S count) false true r) as [o g] eqn:Er. injection E as <- <-.
        destruct (IH [] _ _ _ _ _ N2 S2 (Forall_nil _) Er) as [T2 G2]. cbn [rev app] in T2. split; [apply twin_app; [exact T|apply twin_cons; auto]|].
        rewrite chars_word by (apply (wordly _ _ T); exact F). rewrite app_nil_r. unfold chars. cbn [process_chars]. fold chars. rewrite Ew, Ed.
        rewrite (twin_not_nil _ _ T) by (intro K; apply (f_equal (@rev _)) in K; rewrite rev_involutive in K; subst cur; discriminate). rewrite rev_involutive, G2.
        f_equal. f_equal. apply G. left. reflexivity.
    + destruct (IH (c :: cur) count first after out f) as [T G]; cbn [rev]; rewrite <- ?app_assoc; try assumption; [|split; [cbn [rev] in T; rewrite <- app_assoc in T; exact T|exact G]].
      apply Forall_app. split; [exact F|]. constructor; [auto|constructor].
Qed.
Definition alike (c d : char) : Prop := u_alnum U c = u_alnum U d /\ iron (lo c) = iron (lo d) /\ (d = c_fffd -> c = c_fffd).
Lemma long_alike : forall t t', Forall2 alike t t' -> no_long_noun U PN user common t -> no_long_noun U PN user common t'.
Proof.
  intros t t' F H n a b c In_n Sp Nc E Lb Wa Wc. subst t'. apply Forall2_app_inv_r in F. destruct F as (a0 & x & Fa & F & ->). apply Forall2_app_inv_r in F. destruct F as (b0 & c0 & Fb & Fc & ->).
  intro K. apply (H n a0 b0 c0 In_n Sp Nc eq_refl).
  - rewrite <- Lb. clear - Fb. induction Fb; cbn [List.length]; congruence.
  - intros [W W2]. apply Wa. split; [|clear - W2 Fb; destruct Fb as [|x y p q A Fb]; [exact W2|]; destruct W2 as (d & Q & W2); injection Q as <-; exists y; split; [reflexivity|]; rewrite <- (proj1 A); exact W2].
    clear - W Fa. revert a0 W Fa. induction a as [|y a IH] using rev_ind; intros a0 W Fa.
    + inversion Fa; subst. exact W.
    + apply Forall2_app_inv_r in Fa. destruct Fa as (a1 & a2 & F1 & F2 & ->). inversion F2 as [|x ? l ? A Fl]; subst. inversion Fl; subst.
      rewrite rev_app_distr in *. cbn [rev app hd_error] in *. destruct W as (d & Q & W). injection Q as <-. exists y. split; [reflexivity|]. rewrite <- (proj1 A). exact W.
  - intro W. apply Wc. destruct Fc as [|x y p q A Fc]; [exact W|]. destruct W as (d & Q & W). injection Q as <-. exists y. split; [reflexivity|]. rewrite <- (proj1 A). exact W.
  - rewrite <- K. rewrite !(sc_lower _ _ _ L). clear - Fb. induction Fb as [|x y p q A Fb IH]; [reflexivity|]. cbn [map]. rewrite (proj1 (proj2 A)), IH. reflexivity.
Qed.
Definition fine (t : str) : Prop := no_f t /\ no_capital_s t /\ no_long_noun U PN user common t.
Lemma fine_sub : forall x y z, fine (x ++ y ++ z) -> ~ word_char U (hd_error (rev x)) -> ~ word_char U (hd_error z) -> fine y.
Proof.
  intros x y z (N & S0 & H) Wx Wz. split; [intro I; apply N; apply in_or_app; right; apply in_or_app; left; exact I|]. split; [exact (capital_sub _ _ _ S0)|].
  intros n a b c In_n Sp Nc E Lb Wa Wc. apply (H n (x ++ a) b (c ++ z) In_n Sp Nc); [rewrite E, <- !app_assoc; reflexivity|exact Lb| |].
  - rewrite rev_app_distr. intros [W W2]. destruct (rev a); [exact (Wx W)|exact (Wa (conj W W2))].
  - destruct c; [exact Wz|exact Wc].
Qed.
Lemma fine_unnamed : forall t, fine t -> unnamed U PN user common t.
Proof.
  intros t (N & _ & H). split; [exact N|]. intros n a b c In_n Sp Nc E Lb Wa Wc K. apply (H n a b c In_n Sp Nc E Lb (fun W => Wa (proj1 W)) Wc). unfold lower in K.
  assert (G : forall s, map iron (straight s) = map iron s).
  { clear. intro s. unfold straight. rewrite map_map. apply map_ext. intro c. destruct (N.eqb_spec c 8217) as [->|]; reflexivity. }
  rewrite <- (G (u_lower_str U b)), <- (G (u_lower_str U (u_lower_str U n))), K. reflexivity.
Qed.
Lemma twin_alike : forall a b, twin a b -> Forall2 alike a b.
Proof.
  induction a as [|c a IH]; intros b T; [rewrite (twin_nil_l _ T); constructor|]. apply twin_cons_l in T. destruct T as (d & b' & -> & Q & T). constructor; [|apply IH; exact T].
  split; [apply alnum_same; exact Q|]. split; [rewrite Q; reflexivity|]. intros ->. apply fixed_same; [symmetry; exact Q|sign].
Qed.
Let text := process_text U PN user common.
Lemma text_again : forall first t o f, fine t -> text first t = (o, f) -> twin t o /\ text first o = (o, f).
Proof.
  intros first t o f Ft E. unfold text, process_text in E |- *. rewrite (unnamed_same U PN user common t (fine_unnamed t Ft)) in E. 
  fold chars in E |- *. destruct (chars [] 0 first false t) as [out g] eqn:Ec. cbn in E. injection E as <- <-.
  destruct Ft as (N & S0 & H). destruct (chars_again t [] 0 first false out g N S0 (Forall_nil _) Ec) as [T G]. cbn [rev app] in T. split; [exact T|].
  rewrite unnamed_same.
  - rewrite G. reflexivity.
  - assert (Lo : no_long_noun U PN user common out) by (apply (long_alike t); [apply twin_alike; exact T|exact H]). assert (No : no_f out) by (apply (no_f_twin t); assumption).
    split; [exact No|]. clear - Lo. intros n a b c In_n Sp Nc E Lb Wa Wc K. apply (Lo n a b c In_n Sp Nc E Lb (fun W => Wa (proj1 W)) Wc). unfold lower in K.
    assert (G : forall s, map iron (straight s) = map iron s).
    { clear. intro s. unfold straight. rewrite map_map. apply map_ext. intro x. destruct (N.eqb_spec x 8217) as [->|]; reflexivity. }
    rewrite <- (G (u_lower_str U b)), <- (G (u_lower_str U (u_lower_str U n))), K. reflexivity.
Qed.

(** ** Quotation marks *)
Lemma turned_alike : forall prev op t t', turned U prev op t t' -> Forall2 alike t t'.
Proof.
  assert (M : forall c d, In c [c_sq; c_dq] -> In d [c_sq; c_lsq; c_rsq; c_dq; c_ldq; c_rdq] -> iron c = iron d -> alike c d).
  { intros c d Ic Id E. assert (A : u_alpha U c = false /\ u_alnum U c = false) by (cbn [In] in Ic; destruct Ic as [<-|[<-|[]]]; sign).
    assert (B : u_alpha U d = false /\ u_alnum U d = false) by (cbn [In] in Id; repeat (destruct Id as [<-|Id]; [sign|]); destruct Id).
    split; [destruct A, B; congruence|]. destruct (sc_fixed _ _ _ L c (proj1 A)) as [-> _]. destruct (sc_fixed _ _ _ L d (proj1 B)) as [-> _]. split; [exact E|].
    intros ->. cbn [In] in Id. repeat (destruct Id as [Id|Id]; [discriminate Id|]). destruct Id. }
  induction 1; constructor; try assumption; try (apply M; [cbn [In]; tauto|cbn [In]; tauto|reflexivity]).
  split; [reflexivity|]. split; [reflexivity|]. intro K; exact K.
Qed.
Lemma turned_s : forall prev op t t', turned U prev op t t' -> no_capital_s t -> no_capital_s t'.
Proof.
  intros prev op t t' T. induction T as [prev op|prev op c r out C1 C2 T IHT|prev op r out Ap T IHT|prev op r out Ap Op T IHT|prev op r out Ap Op T IHT|prev op r out Op T IHT|prev op r out Op T IHT]; intro H; intros a q b Mq E.
  - destruct a; discriminate.
  - destruct a as [|y a].
    + injection E as -> E. rewrite E in T. inversion T; subst. exact (H [] q _ Mq eq_refl).
    + injection E as _ E. refine (IHT _ a q b Mq E). intros a1 q1 b1 M1 E1. apply (H (c :: a1) q1 b1 M1). rewrite E1. reflexivity.
  - destruct a as [|y a].
    + injection E as <- E. rewrite E in T. inversion T; subst. exact (H [] c_sq _ (or_introl eq_refl) eq_refl).
    + injection E as _ E. refine (IHT _ a q b Mq E). intros a1 q1 b1 M1 E1. apply (H (c_sq :: a1) q1 b1 M1). rewrite E1. reflexivity.
  - destruct a as [|y a].
    + injection E as <- E. destruct Mq; discriminate.
    + injection E as _ E. refine (IHT _ a q b Mq E). intros a1 q1 b1 M1 E1. apply (H (c_sq :: a1) q1 b1 M1). rewrite E1. reflexivity.
  - destruct a as [|y a].
    + injection E as <- E. rewrite E in T. inversion T; subst. exact (H [] c_sq _ (or_introl eq_refl) eq_refl).
    + injection E as _ E. refine (IHT _ a q b Mq E). intros a1 q1 b1 M1 E1. apply (H (c_sq :: a1) q1 b1 M1). rewrite E1. reflexivity.
  - destruct a as [|y a].
    + injection E as <- E. destruct Mq; discriminate.
    + injection E as _ E. refine (IHT _ a q b Mq E). intros a1 q1 b1 M1 E1. apply (H (c_dq :: a1) q1 b1 M1). rewrite E1. reflexivity.
  - destruct a as [|y a].
    + injection E as <- E. destruct Mq; discriminate.
    + injection E as _ E. refine (IHT _ a q b Mq E). intros a1 q1 b1 M1 E1. apply (H (c_dq :: a1) q1 b1 M1). rewrite E1. reflexivity.
Qed.
Lemma turned_fine : forall prev op t t', turned U prev op t t' -> fine t -> fine t'.
Proof.
  intros prev op t t' T (N & S0 & H). pose proof (turned_alike _ _ _ _ T) as A. split; [|split; [exact (turned_s _ _ _ _ T S0)|exact (long_alike _ _ A H)]].
  intro I. apply N. clear - I A. induction A as [|c d t t' (_ & _ & C) A IH]; [destruct I|]. destruct I as [->|I]; [left; apply C; reflexivity|right; apply IH; exact I].
Qed.
Lemma hd_turned : forall prev op t t' P, turned U prev op t t' -> P c_sq = false -> P c_dq = false ->
  match hd_error t with Some c => P c = true | None => False end -> exists c, hd_error t = Some c /\ hd_error t' = Some c /\ P c = true.
Proof. intros prev op t t' P T H1 H2 H. destruct T; cbn [hd_error] in *; try congruence; [destruct H|]. exists c. auto. Qed.
Lemma turned_again : forall prev op t t', turned U prev op t t' -> no_decade t -> forall o prev', twin t' o -> (a_letter U prev -> a_letter U prev') ->
  normalize_quotes_from U prev' false o = o.
Proof.
  assert (Sq : u_alpha U c_sq = false) by sign. assert (Dq : u_alpha U c_dq = false) by sign.
  assert (ND : forall c r, no_decade (c :: r) -> no_decade r) by (intros c r H a b E; apply (H (c :: a) b); rewrite E; reflexivity).
  assert (NL : forall x y, x = c_sq \/ x = c_dq -> a_letter U (Some x) -> a_letter U y).
  { intros x y Hx (c & Q & A). injection Q as <-. destruct Hx; subst x; congruence. }
  assert (Other : forall c o prev op, c <> c_sq -> c <> c_dq -> normalize_quotes_from U prev op (c :: o) = c :: normalize_quotes_from U (Some c) op o).
  { intros c o prev op H1 H2. cbn [normalize_quotes_from]. destruct (ceq_spec c c_sq); [contradiction|]. destruct (ceq_spec c c_dq); [contradiction|]. reflexivity. }
  induction 1 as [prev op|prev op c r out C1 C2 T IH|prev op r out Ap T IH|prev op r out Ap Op T IH|prev op r out Ap Op T IH|prev op r out Op T IH|prev op r out Op T IH];
    intros D o prev' Tw HP.
  - rewrite (twin_nil_l _ Tw). reflexivity.
  - apply twin_cons_l in Tw. destruct Tw as (d & o' & -> & Q & Tw).
    assert (d <> c_sq) by (rewrite <- (sign_same c d c_sq Q Sq); exact C1). assert (d <> c_dq) by (rewrite <- (sign_same c d c_dq Q Dq); exact C2).
    rewrite Other by assumption. f_equal. apply IH; [exact (ND _ _ D)|exact Tw|]. intros (x & E & A). injection E as <-. exists d. split; [reflexivity|]. rewrite <- (alpha_same _ _ Q). exact A.
  - apply twin_cons_l in Tw. destruct Tw as (d & o' & -> & Q & Tw). assert (d = c_sq) by (apply fixed_same; assumption). subst d.
    cbn [normalize_quotes_from]. replace (ceq c_sq c_sq) with true by reflexivity.
    assert (E : single_quote U prev' false o' = (c_sq, false)).
    { unfold single_quote. destruct Ap as [[_ Dc]|[[Al An]|[Al [_ (x & Hx & Wx)]]]].
      - exfalso. exact (D [] r eq_refl Dc).
      - destruct (hd_turned _ _ _ _ (u_alpha U) T Sq Dq) as (x & H1 & H2 & H3); [destruct An as (x & -> & Ax); exact Ax|].
        destruct out as [|x' out]; [discriminate|]. injection H2 as ->. apply twin_cons_l in Tw. destruct Tw as (e & o2 & -> & Q2 & Tw).
        assert (Ae : u_alpha U e = true) by (rewrite <- (alpha_same _ _ Q2); exact H3).
        replace (decade_ahead (e :: o2)) with false.
        + cbn [andb]. rewrite (proj2 (opt_alpha_iff U _) (HP Al)). cbn [hd_error opt_alpha andb]. rewrite Ae. reflexivity.
        + symmetry. unfold decade_ahead. destruct o2 as [|? [|? ?]]; try reflexivity. destruct (is_ascii_digit e) eqn:Ed; [|reflexivity]. rewrite (sc_digit _ _ _ L e Ed) in Ae. discriminate.
      - destruct (hd_turned _ _ _ _ is_ws T eq_refl eq_refl) as (y & H1 & H2 & H3); [rewrite Hx; exact Wx|].
        destruct out as [|x' out]; [discriminate|]. injection H2 as ->. apply twin_cons_l in Tw. destruct Tw as (e & o2 & -> & Q2 & Tw).
        assert (We : is_ws e = true) by (rewrite <- (ws_same _ _ Q2); exact H3).
        replace (decade_ahead (e :: o2)) with false.
        + cbn [andb]. rewrite (proj2 (opt_alpha_iff U _) (HP Al)). cbn [hd_error opt_alpha andb]. rewrite We. cbn [negb andb].
          match goal with |- (if ?b then _ else _) = _ => destruct b; reflexivity end.
        + symmetry. unfold decade_ahead. destruct o2 as [|? [|? ?]]; try reflexivity. destruct (is_ascii_digit e) eqn:Ed; [|reflexivity]. exfalso. clear - Ed We.
          unfold is_ascii_digit in Ed. unfold is_ws in We. lia. }
    rewrite E. f_equal. apply IH; [exact (ND _ _ D)|exact Tw|]. intro K; exact K.
  - apply twin_cons_l in Tw. destruct Tw as (d & o' & -> & Q & Tw). assert (d = c_lsq) by (apply fixed_same; [exact Q|sign]). subst d. rewrite Other by discriminate.
    f_equal. apply IH; [exact (ND _ _ D)|exact Tw|]. apply NL; auto.
  - apply twin_cons_l in Tw. destruct Tw as (d & o' & -> & Q & Tw). assert (d = c_rsq) by (apply fixed_same; [exact Q|sign]). subst d. rewrite Other by discriminate.
    f_equal. apply IH; [exact (ND _ _ D)|exact Tw|]. apply NL; auto.
  - apply twin_cons_l in Tw. destruct Tw as (d & o' & -> & Q & Tw). assert (d = c_ldq) by (apply fixed_same; [exact Q|sign]). subst d. rewrite Other by discriminate.
    f_equal. apply IH; [exact (ND _ _ D)|exact Tw|]. apply NL; auto.
  - apply twin_cons_l in Tw. destruct Tw as (d & o' & -> & Q & Tw). assert (d = c_rdq) by (apply fixed_same; [exact Q|sign]). subst d. rewrite Other by discriminate.
    f_equal. apply IH; [exact (ND _ _ D)|exact Tw|]. apply NL; auto.
Qed.
(** ** Quotations *)
Lemma tokens_plain : forall t cur x, unopened t -> tokenize_quotes_from None cur (t ++ x) = tokenize_quotes_from None (rev t ++ cur) x.
Proof.
  induction t as [|c t IH]; intros cur x [H1 H2]; [reflexivity|]. cbn [app tokenize_quotes_from].
  destruct (ceq_spec c c_ldq) as [->|_]; [exfalso; apply H1; left; reflexivity|]. destruct (ceq_spec c c_lsq) as [->|_]; [exfalso; apply H2; left; reflexivity|].
  rewrite IH by (split; intro I; [apply H1|apply H2]; right; exact I). cbn [rev]. rewrite <- app_assoc. reflexivity.
Qed.
Lemma tokens_inside : forall q d k cur x, ~ In (right_mark d) q -> tokenize_quotes_from (Some (d, k)) cur (q ++ x) = tokenize_quotes_from (Some (d, rev q ++ k)) cur x.
Proof.
  induction q as [|c q IH]; intros d k cur x H; [reflexivity|]. cbn [app tokenize_quotes_from]. fold (right_mark d).
  destruct (ceq_spec c (right_mark d)) as [->|_]; [exfalso; apply H; left; reflexivity|].
  rewrite IH by (intro I; apply H; right; exact I). cbn [rev]. rewrite <- app_assoc. reflexivity.
Qed.
Lemma tokens_opened : forall t d x, unopened t -> tokenize_quotes (t ++ [left_mark d] ++ x) = map tok (plain t) ++ tokenize_quotes_from (Some (d, [])) [] x.
Proof.
  intros t d x Un. unfold tokenize_quotes. rewrite tokens_plain by exact Un. rewrite app_nil_r. cbn [app tokenize_quotes_from].
  rewrite text_tok_plain, rev_involutive. destruct d; reflexivity.
Qed.
Lemma cut_tok : forall s l, cut s l -> tokenize_quotes s = map tok l.
Proof.
  induction 1 as [t Un|t d q r l Un N C IH|t d q Un N].
  - unfold tokenize_quotes. rewrite <- (app_nil_r t) at 1. rewrite tokens_plain by exact Un. cbn [tokenize_quotes_from]. rewrite text_tok_plain, app_nil_r, rev_involutive. reflexivity.
  - rewrite tokens_opened by exact Un. rewrite map_app. f_equal. rewrite tokens_inside by exact N. cbn [app tokenize_quotes_from map tok]. fold (right_mark d).
    rewrite (proj2 (ceq_true _ _) eq_refl), app_nil_r, rev_involutive. f_equal. exact IH.
  - rewrite tokens_opened by exact Un. rewrite map_app. f_equal. rewrite <- (app_nil_r q) at 1. rewrite tokens_inside by exact N. cbn [tokenize_quotes_from map tok]. fold (left_mark d).
    rewrite app_nil_r, rev_involutive. reflexivity.
Qed.
Lemma mark_sign : forall d, u_alpha U (left_mark d) = false /\ u_alnum U (left_mark d) = false /\ u_alpha U (right_mark d) = false /\ u_alnum U (right_mark d) = false.
Proof. intros []; cbn [left_mark right_mark]; repeat split; sign. Qed.
Lemma no_word : forall c, u_alnum U c = false -> ~ word_char U (Some c).
Proof. intros c H (d & Q & A). injection Q as <-. congruence. Qed.
Lemma unopened_twin : forall a b, twin a b -> unopened a -> unopened b.
Proof. intros a b T [H1 H2]. split; intro I; [apply H1|apply H2]; (eapply twin_in; [sign|apply twin_sym; exact T|exact I]). Qed.
Let step := token_step U PN user common.
Lemma plain_again : forall inside q t first, fine t -> exists o f, twin t o
  /\ (forall acc, fold_left (step inside q) (map tok (plain t)) (acc, first) = (acc ++ o, f))
  /\ (forall acc, fold_left (step inside q) (map tok (plain o)) (acc, first) = (acc ++ o, f)).
Proof.
  intros inside q t first Ft. destruct t as [|c t].
  { exists [], first. split; [reflexivity|]. split; intro acc; cbn [plain map fold_left]; rewrite app_nil_r; reflexivity. }
  destruct (text first (c :: t)) as [o f] eqn:E. destruct (text_again _ _ _ _ Ft E) as [T G]. exists o, f. split; [exact T|].
  split; intro acc.
  - cbn [plain map tok fold_left]. unfold step. cbn [token_step snd fst]. fold text. rewrite E. reflexivity.
  - destruct o as [|d o]; [apply twin_sym, twin_nil_l in T; discriminate|]. cbn [plain map tok fold_left]. unfold step. cbn [token_step snd fst]. fold text. rewrite G. reflexivity.
Qed.
Definition steady (q : str -> bool -> str) (d : bool) (x : str) : Prop :=
  exists x', q x d = left_mark d :: x' ++ [right_mark d] /\ twin x x' /\ q x' d = q x d.
Lemma cut_again : forall inside q s l, cut s l -> fine s -> (forall d x, In (Quoted d x) l -> fine x -> steady q d x) -> forall first,
  exists o f l', twin s o /\ cut o l' /\ (forall acc, fold_left (step inside q) (map tok l) (acc, first) = (acc ++ o, f))
  /\ (forall acc, fold_left (step inside q) (map tok l') (acc, first) = (acc ++ o, f)).
Proof.
  intros inside q s l C. induction C as [t Un|t d x r l Un N C IH|t d x Un N]; intros Fs Hq first.
  - destruct (plain_again inside q t first Fs) as (o & f & T & G1 & G2). exists o, f, (plain o). split; [exact T|]. split; [apply cut_end; exact (unopened_twin _ _ T Un)|]. auto.
  - destruct (mark_sign d) as (A1 & A2 & A3 & A4).
    assert (F1 : fine t). { apply (fine_sub [] t ([left_mark d] ++ x ++ [right_mark d] ++ r)); [exact Fs|intros (? & Q & _); discriminate|apply no_word; exact A2]. }
    assert (F2 : fine x). { apply (fine_sub (t ++ [left_mark d]) x ([right_mark d] ++ r)); [rewrite <- app_assoc; exact Fs|rewrite rev_app_distr; apply no_word; exact A2|apply no_word; exact A4]. }
    assert (F3 : fine r). { apply (fine_sub (t ++ [left_mark d] ++ x ++ [right_mark d]) r []); [rewrite app_nil_r, <- !app_assoc; exact Fs| |intros (? & Q & _); discriminate].
      rewrite !app_assoc, rev_app_distr. apply no_word. exact A4. }
    destruct (plain_again inside q t first F1) as (o1 & f1 & T1 & G1 & G1').
    destruct (Hq d x) as (x' & E & Tx & E'); [apply in_or_app; right; left; reflexivity|exact F2|].
    destruct (IH F3) with (first := if inside then false else f1) as (o3 & f3 & l3 & T3 & C3 & G3 & G3').
    { intros d0 x0 I F0. apply Hq; [apply in_or_app; right; right; exact I|exact F0]. }
    exists (o1 ++ [left_mark d] ++ x' ++ [right_mark d] ++ o3), f3, (plain o1 ++ Quoted d x' :: l3).
    split; [repeat (apply twin_app; [first [assumption|reflexivity]|]); exact T3|].
    split; [apply cut_quote; [exact (unopened_twin _ _ T1 Un)| |exact C3]; intro I; apply N; apply (twin_in _ x' x A3); [apply twin_sym; exact Tx|exact I]|].
    split; intro acc; rewrite map_app, fold_left_app; [rewrite G1|rewrite G1']; cbn [map tok fold_left]; unfold step at 2; cbn [token_step fst snd]; [|rewrite E'];
      rewrite E; [etransitivity; [apply G3|]|etransitivity; [apply G3'|]]; f_equal; rewrite <- !app_assoc; cbn [app]; rewrite <- !app_assoc; reflexivity.
  - destruct (mark_sign d) as (A1 & A2 & A3 & A4).
    assert (F1 : fine t). { apply (fine_sub [] t ([left_mark d] ++ x)); [exact Fs|intros (? & Q & _); discriminate|apply no_word; exact A2]. }
    assert (F2 : fine (left_mark d :: x)).
    { destruct Fs as (N1 & S1 & H1). split; [intro I; apply N1; apply in_or_app; right; exact I|]. split; [apply (capital_sub t _ []); rewrite app_nil_r; exact S1|].
      intros n a b c In_n Sp Nc E Lb Wa Wc. apply (H1 n (t ++ a) b c In_n Sp Nc); [rewrite <- app_assoc; f_equal; exact E|exact Lb| |exact Wc].
      intros [W W2]. rewrite rev_app_distr in W. destruct a as [|y a].
      - destruct b as [|y b]; [destruct W2 as (? & Q & _); discriminate|]. injection E as <- _. exact (no_word _ A2 W2).
      - apply Wa. split; [|exact W2]. cbn [rev] in *. destruct (rev a); exact W. }
    destruct (plain_again inside q t first F1) as (o1 & f1 & T1 & G1 & G1').
    destruct (plain_again inside q (left_mark d :: x) f1 F2) as (o2 & f2 & T2 & G2 & G2').
    pose proof T2 as T2'. apply twin_cons_l in T2'. destruct T2' as (e & x' & -> & Q & Tx). assert (e = left_mark d) by (apply fixed_same; assumption). subst e.
    exists (o1 ++ left_mark d :: x'), f2, (plain o1 ++ [Plain (left_mark d :: x')]). split; [apply twin_app; assumption|].
    split; [apply (cut_open o1 d x'); [exact (unopened_twin _ _ T1 Un)|intro I; apply N; apply (twin_in _ x' x A3); [apply twin_sym; exact Tx|exact I]]|].
    split; intro acc; rewrite map_app, fold_left_app; [rewrite G1|rewrite G1']; (etransitivity; [(apply G2 || apply G2')|]); rewrite <- app_assoc; reflexivity.
Qed.
Let quoting := process_quoted U PN.
Lemma quoted_again : forall k x d, List.length x < k -> fine x -> steady (quoting k user common) d x.
Proof.
  induction k as [|k IH]; intros x d Lk Fx; [lia|]. unfold steady, quoting. cbn [process_quoted]. fold quoting. fold (left_mark d) (right_mark d).
  destruct (is_nil x) eqn:En.
  { apply is_nil_true in En. subst x. exists []. repeat split; reflexivity. }
  destruct (find (u_alpha U) x) as [a|] eqn:Ef.
  2: { exists x. split; [reflexivity|]. split; [reflexivity|]. rewrite En, Ef. reflexivity. }
  destruct (u_upper U a) eqn:Ea.
  2: { exists x. split; [reflexivity|]. split; [reflexivity|]. rewrite En, Ef, Ea. reflexivity. }
  destruct (tokens_cut x) as (l & E & C). rewrite E.
  destruct (cut_again true (quoting k user common) x l C Fx) with (first := true) as (o & f & l' & T & C' & G & G').
  { intros d0 x0 I F0. apply IH; [|exact F0]. pose proof (cut_short U (proj1 (sc_s _ _ _ L)) (proj1 (sc_signs _ _ _ L c_dot ltac:(cbn [In]; tauto))) _ _ C _ _ I). lia. }
  specialize (G []). specialize (G' []). apply (f_equal fst) in G. apply (f_equal fst) in G'. cbn [app fst] in G, G'.
  assert (E1 : forall b : str, b = o -> left_mark d :: b ++ [right_mark d] = left_mark d :: o ++ [right_mark d]) by (intros b ->; reflexivity).
  exists o. split; [apply E1; exact G|]. split; [exact T|].
  destruct (is_nil o) eqn:Eo; [exfalso; apply is_nil_true in Eo; rewrite Eo in T; apply twin_sym, twin_nil_l in T; rewrite T in En; discriminate|].
  etransitivity; [|symmetry; apply E1; exact G]. apply E1. destruct (find (u_alpha U) o) as [b|]; [|reflexivity]. destruct (u_upper U b); [|reflexivity].
  rewrite (cut_tok _ _ C'). exact G'.
Qed.

(** ** Headings *)
Let sstep := sentence_step U PN user common.
Lemma piece_again : forall cur first, fine (rev cur) -> no_decade (rev cur) -> ~ In c_bt cur -> exists o f, ~ In c_bt o
  /\ (forall acc, fold_left sstep (text_tokens U cur) (acc, first) = (acc ++ o, f))
  /\ (forall acc, fold_left sstep (text_tokens U (rev o)) (acc, first) = (acc ++ o, f)).
Proof.
  intros cur first F D B. unfold text_tokens. destruct (is_nil cur) eqn:En.
  { apply is_nil_true in En. subst cur. exists [], first. split; [intros []|]. split; intro acc; cbn [rev is_nil fold_left]; rewrite app_nil_r; reflexivity. }
  pose proof (turned_ok U (proj1 (sc_s _ _ _ L)) (rev cur) None false) as Tu. fold (normalize_quotes U (rev cur)) in Tu. set (t' := normalize_quotes U (rev cur)) in *.
  destruct (tokens_cut t') as (l & E & C). rewrite E.
  destruct (cut_again false (fun x d => quoting (S (List.length x)) user common x d) t' l C (turned_fine _ _ _ _ Tu F)) with (first := first) as (o & f & l' & T & C' & G & G').
  { intros d x _ Fx. destruct (quoted_again (S (List.length x)) x d) as (x' & E1 & T1 & E2); [lia|exact Fx|]. exists x'. split; [exact E1|]. split; [exact T1|].
    rewrite <- (twin_len _ _ T1). exact E2. }
  exists o, f. split.
  { intro I. apply B. apply in_rev. assert (I' : In c_bt t') by (apply (twin_in c_bt o t'); [sign|apply twin_sym; exact T|exact I]).
    clear - I' Tu. induction Tu; cbn [In] in *; try (destruct I' as [K|K]; [try discriminate K; auto|right; apply IHTu; exact K]). destruct I'. }
  split; [exact G|]. intro acc. rewrite rev_involutive. 
  assert (No : normalize_quotes U o = o) by (unfold normalize_quotes; eapply turned_again; [exact Tu|exact D|exact T|intro K; exact K]).
  rewrite No, (cut_tok _ _ C'). destruct (is_nil (rev o)) eqn:Eo; [|apply G'].
  apply is_nil_true in Eo. apply (f_equal (@rev _)) in Eo. rewrite rev_involutive in Eo. subst o. pose proof (cut_tok _ _ C') as Z. cbn in Z. destruct l' as [|g l']; [apply (G' acc)|discriminate Z].
Qed.
Lemma tokenize_text : forall o cur x, ~ In c_bt o -> tokenize_from U None cur (o ++ x) = tokenize_from U None (rev o ++ cur) x.
Proof.
  induction o as [|c o IH]; intros cur x B; [reflexivity|]. cbn [app tokenize_from]. destruct (ceq_spec c c_bt) as [->|_]; [exfalso; apply B; left; reflexivity|].
  rewrite IH by (intro I; apply B; right; exact I). cbn [rev]. rewrite <- app_assoc. reflexivity.
Qed.
Lemma tokens_again : forall s,
  (forall cur first, fine (rev cur ++ s) -> no_decade (rev cur ++ s) -> ~ In c_bt cur -> exists out f,
     (forall acc, fold_left sstep (tokenize_from U None cur s) (acc, first) = (acc ++ out, f))
     /\ (forall acc, fold_left sstep (tokenize_from U None [] out) (acc, first) = (acc ++ out, f)))
  /\ (forall k cur first, fine (rev k ++ s) -> no_decade (rev k ++ s) -> exists m f,
     (forall acc, fold_left sstep (tokenize_from U (Some k) cur s) (acc, first) = (acc ++ rev k ++ m, f))
     /\ (forall acc, fold_left sstep (tokenize_from U (Some k) [] m) (acc, first) = (acc ++ rev k ++ m, f))).
Proof.
  assert (Bt : u_alnum U c_bt = false) by sign.
  assert (Dp : forall a b, no_decade (a ++ b) -> no_decade b) by (intros a b H x y E; apply (H (a ++ x) y); rewrite E, app_assoc; reflexivity).
  assert (Dq : forall a b, no_decade (a ++ b) -> no_decade a).
  { intros a b H x y E (p & q & r & -> & P & Q). apply (H x (p :: q :: 115%N :: r ++ b)); [rewrite E, <- app_assoc; reflexivity|]. exists p, q, (r ++ b). auto. }
  induction s as [|c r [IH1 IH2]]; split.
  - intros cur first F D B. rewrite app_nil_r in *. destruct (piece_again cur first F D B) as (o & f & Bo & G & G'). exists o, f. split; [exact G|].
    intro acc. rewrite <- (app_nil_r o) at 1. rewrite tokenize_text by exact Bo. rewrite app_nil_r. exact (G' acc).
  - intros k cur first F D. exists [], false. split; intro acc; cbn [tokenize_from fold_left]; unfold sstep; cbn [sentence_step fst]; rewrite app_nil_r; reflexivity.
  - intros cur first F D B. cbn [tokenize_from]. destruct (ceq_spec c c_bt) as [->|Nc].
    + assert (F1 : fine (rev cur)) by (apply (fine_sub [] (rev cur) (c_bt :: r)); [exact F|intros (? & Q & _); discriminate|apply no_word; exact Bt]).
      assert (F2 : fine (rev [c_bt] ++ r)).
      { destruct F as (N1 & S1 & H1). split; [intro I; apply N1; apply in_or_app; right; exact I|]. split; [apply (capital_sub (rev cur) _ []); rewrite app_nil_r; exact S1|].
        intros n a b x In_n Sp Nn E Lb Wa Wc. apply (H1 n (rev cur ++ a) b x In_n Sp Nn); [rewrite <- app_assoc; f_equal; exact E|exact Lb| |exact Wc].
        intros [W W2]. rewrite rev_app_distr in W. destruct a as [|y a].
        - destruct b as [|y b]; [destruct W2 as (? & Q & _); discriminate|]. injection E as <- _. exact (no_word _ Bt W2).
        - apply Wa. split; [|exact W2]. cbn [rev] in *. destruct (rev a); exact W. }
      destruct (piece_again cur first F1 (Dq _ _ D) B) as (o & f & Bo & G & G').
      destruct (IH2 [c_bt] [] f F2 (Dp _ _ D)) as (m & f2 & H & H'). exists (o ++ [c_bt] ++ m), f2. split; intro acc.
      * rewrite fold_left_app, G. etransitivity; [apply H|]. rewrite <- !app_assoc. reflexivity.
      * rewrite tokenize_text by exact Bo. rewrite app_nil_r. cbn [app tokenize_from]. replace (ceq c_bt c_bt) with true by reflexivity.
        rewrite fold_left_app, G'. etransitivity; [apply H'|]. rewrite <- !app_assoc. reflexivity.
    + apply (IH1 (c :: cur)); cbn [rev]; rewrite <- ?app_assoc; try assumption. intros [K|K]; [congruence|exact (B K)].
  - intros k cur first F D. cbn [tokenize_from]. destruct (ceq_spec c c_bt) as [->|Nc].
    + assert (F1 : fine r).
      { apply (fine_sub (rev k ++ [c_bt]) r []); [rewrite app_nil_r, <- app_assoc; exact F|rewrite rev_app_distr; apply no_word; exact Bt|intros (? & Q & _); discriminate]. }
      assert (D1 : no_decade r) by (apply (Dp (rev k ++ [c_bt])); rewrite <- app_assoc; exact D).
      destruct (IH1 [] false F1 D1 (fun i => i)) as (out & f & G & G'). exists (c_bt :: out), f. split; intro acc.
      * cbn [fold_left]. unfold sstep at 2. cbn [sentence_step fst]. etransitivity; [apply G|]. cbn [rev]. rewrite <- !app_assoc. reflexivity.
      * cbn [tokenize_from]. replace (ceq c_bt c_bt) with true by reflexivity. cbn [fold_left]. unfold sstep at 2. cbn [sentence_step fst]. etransitivity; [apply G'|]. cbn [rev]. rewrite <- !app_assoc. reflexivity.
    + destruct (IH2 (c :: k) cur first) as (m & f & G & G'); [cbn [rev]; rewrite <- app_assoc; assumption|cbn [rev]; rewrite <- app_assoc; assumption|].
      exists (c :: m), f. split; intro acc.
      * etransitivity; [apply G|]. cbn [rev]. rewrite <- !app_assoc. reflexivity.
      * cbn [tokenize_from]. destruct (ceq_spec c c_bt); [contradiction|]. etransitivity; [|etransitivity; [apply G'|]].
        -- f_equal.
        -- cbn [rev]. rewrite <- !app_assoc. reflexivity.
Qed.
Theorem sentence_again : forall t, settled_text U PN user common t ->
  to_sentence_case U PN user common (to_sentence_case U PN user common t) = to_sentence_case U PN user common t.
Proof.
  intros t (N & S0 & D & H). unfold to_sentence_case. destruct (is_nil t) eqn:En; [reflexivity|]. unfold tokenize_with_code_spans. fold sstep.
  destruct (proj1 (tokens_again t) [] true (conj N (conj S0 H)) D (fun i => i)) as (out & f & G & G'). specialize (G []). specialize (G' []).
  apply (f_equal fst) in G. apply (f_equal fst) in G'. cbn [app fst] in G, G'. 
  match goal with |- (if is_nil ?X then _ else fst (fold_left _ (tokenize_from _ _ _ ?X) _)) = _ => replace X with out by (symmetry; exact G) end.
  destruct (is_nil out) eqn:Eo; [apply is_nil_true in Eo; symmetry; exact Eo|exact G'].
Qed.
End Again.
