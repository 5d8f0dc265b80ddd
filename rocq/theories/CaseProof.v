(** The model's sentence case follows the rules of SpecCase. *)
From Coq Require Import Bool Arith NArith Lia ZifyBool ZifyNat ZifyN List.
From Verif Require Import Base BaseFacts OptsModel HeadingModel SpecHeading HeadingProof SpecCase.
Import ListNotations.

Section Proof.
Variable U : Uni.
Variable PN : list (str * str).
Variables user common : list str.
Hypothesis letter_s : u_alpha U 115%N = true.
Hypothesis no_letter_dot : u_alpha U c_dot = false.

(** ** Words *)
Lemma all_upper_iff : forall w, all_upper U w = true <-> shouted U w.
Proof.
  intro w. unfold all_upper, shouted, letters. cbv zeta. rewrite andb_true_iff, forallb_forall, Forall_forall.
  destruct (filter (u_alpha U) w); cbn [is_nil negb]; split; intros [A B]; try discriminate; try congruence; split; auto; discriminate.
Qed.
Lemma scan_iff : forall k s, List.length s <= k ->
  (1 <= fst (acronym_scan U s) <-> exists c, In c s /\ capital_letter U c)
  /\ (snd (acronym_scan U s) = true <-> exists a c b, s = a ++ [c; c_dot] ++ b /\ u_alpha U c = true).
Proof.
  induction k as [|k IH]; intros s L.
  - destruct s; [|cbn in L; lia]. cbn. split; split.
    + lia.
    + intros (c & [] & _).
    + discriminate.
    + intros (a & c & b & E & _). destruct a; discriminate.
  - destruct s as [|c r]; [apply IH; cbn; lia|]. cbn [List.length] in L. cbn [acronym_scan].
    assert (Skip : forall (b0 : list char), u_alpha U c = false \/ hd_error r <> Some c_dot ->
      (exists a c' b, c :: r = a ++ [c'; c_dot] ++ b /\ u_alpha U c' = true) <-> (exists a c' b, r = a ++ [c'; c_dot] ++ b /\ u_alpha U c' = true)).
    { intros _ H. split.
      - intros (a & c' & b & E & Al). destruct a as [|x a].
        + cbn [app] in E. injection E as -> ->. destruct H as [H|H]; [congruence|contradiction H; reflexivity].
        + injection E as _ ->. exists a, c', b. auto.
      - intros (a & c' & b & -> & Al). exists (c :: a), c', b. auto. }
    destruct (u_alpha U c) eqn:A.
    + destruct r as [|d r'].
      * split; split.
        -- cbn [fst]. destruct (u_upper U c) eqn:Up; [|lia]. intros _. exists c. split; [left; reflexivity|split; assumption].
        -- intros (x & [<-|[]] & _ & Up). rewrite Up. cbn. lia.
        -- discriminate.
        -- intros (a & c' & b & E & _). destruct a as [|? [|]]; discriminate.
      * destruct (ceq_spec d c_dot) as [->|D].
        -- destruct (IH r') as [I1 I2]; [cbn in L; lia|]. destruct (acronym_scan U r') as [n p]. cbn [fst snd] in *. split; split.
           ++ intro H. destruct (u_upper U c) eqn:Up; [exists c; split; [left; reflexivity|split; assumption]|].
              destruct (proj1 I1 ltac:(lia)) as (x & I & C). exists x. split; [right; right; exact I|exact C].
           ++ intros (x & [<-|[<-|I]] & C).
              ** destruct C as [_ ->]. lia.
              ** destruct C as [C _]. congruence.
              ** assert (1 <= n) by (apply I1; eauto). lia.
           ++ intros _. exists [], c, r'. auto.
           ++ reflexivity.
        -- destruct (IH (d :: r')) as [I1 I2]; [lia|]. destruct (acronym_scan U (d :: r')) as [n p]. cbn [fst snd] in *. split.
           ++ split.
              ** intro H. destruct (u_upper U c) eqn:Up; [exists c; split; [left; reflexivity|split; assumption]|].
                 destruct (proj1 I1 ltac:(lia)) as (x & I & C). exists x. split; [right; exact I|exact C].
              ** intros (x & [<-|I] & C); [destruct C as [_ ->]; lia|]. assert (1 <= n) by (apply I1; eauto). lia.
           ++ rewrite I2. symmetry. apply Skip; [exact []|]. right. cbn. congruence.
    + destruct (IH r) as [I1 I2]; [lia|]. split.
      * rewrite I1. split; intros (x & I & C); [exists x; split; [right; exact I|exact C]|].
        destruct I as [<-|I]; [destruct C; congruence|eauto].
      * rewrite I2. symmetry. apply Skip; [exact []|auto].
Qed.
Lemma is_acronym_iff : forall w, is_acronym U w = true <-> acronym U w.
Proof.
  intro w. unfold acronym, letters. destruct w as [|a [|b r]].
  - cbn. split; [discriminate|]. intros [(x & y & z & E & _)|(L & _)]; [discriminate|lia].
  - unfold is_acronym. split; [discriminate|]. intros [(x & y & z & E & _)|(L & _)]; [discriminate|].
    cbn [filter] in L. destruct (u_alpha U a); cbn in L; lia.
  - unfold is_acronym. destruct (u_upper U a && u_alpha U a && u_upper U b && u_alpha U b) eqn:E.
    + split; [intros _|reflexivity]. left. exists a, b, r. unfold capital_letter. repeat rewrite andb_true_iff in E. tauto.
    + cbv zeta. set (w := a :: b :: r) in *. destruct (scan_iff (List.length w) w (le_n _)) as [I1 I2].
      destruct (acronym_scan U w) as [n p]. cbn [fst snd] in *. set (ls := filter (u_alpha U) w) in *.
      assert (C : ~ (exists x y z, w = x :: y :: z /\ capital_letter U x /\ capital_letter U y)).
      { intros (x & y & z & Q & [X1 X2] & [Y1 Y2]). unfold w in Q. injection Q as <- <- <-. rewrite X1, X2, Y1, Y2 in E. discriminate. }
      destruct (List.length ls <? 2) eqn:L.
      * split; [discriminate|]. intros [Q|(Q & _)]; [contradiction|lia].
      * rewrite !andb_true_iff. split.
        -- intros [[P _] N]. right. split; [lia|]. split; [apply I1; lia|apply I2; exact P].
        -- intros [Q|(_ & Q1 & Q2)]; [contradiction|]. apply I1 in Q1. apply I2 in Q2. subst p. repeat split; lia.
Qed.
Lemma is_i : forall c, eq_ignore_ascii_case c c_i = true <-> c = 105%N \/ c = 73%N.
Proof.
  intro c. unfold eq_ignore_ascii_case, ceq, ascii_lower, is_ascii_upper, c_i. cbn. rewrite N.eqb_eq. destruct ((65 <=? c) && (c <=? 90))%N eqn:E; lia.
Qed.
Lemma pronoun_iff : forall w w', pronoun_i w = Some w' <-> pronoun w w'.
Proof.
  intros w w'. split.
  - intro H. destruct w as [|c [|q r]]; cbn [pronoun_i] in H; [discriminate| |].
    + destruct (eq_ignore_ascii_case c c_i) eqn:E; [|discriminate]. injection H as <-. apply is_i in E. apply pronoun_alone. exact E.
    + destruct (eq_ignore_ascii_case c c_i) eqn:E; [|discriminate]. apply is_i in E. cbn [andb] in H.
      destruct (ceq_spec q c_sq) as [->|]; [injection H as <-; apply pronoun_with; auto|].
      destruct (ceq_spec q c_rsq) as [->|]; [injection H as <-; apply pronoun_with; auto|discriminate].
  - intros [i I|i q r I Q]; cbn [pronoun_i]; apply is_i in I; rewrite I; [reflexivity|]. cbn [andb].
    destruct Q as [->| ->]; reflexivity.
Qed.
Lemma pronoun_none : forall w, pronoun_i w = None -> forall v, ~ pronoun w v.
Proof. intros w H v P. apply pronoun_iff in P. congruence. Qed.

(** ** Proper nouns *)
Lemma find_first : forall A (p : A -> bool) (P : A -> Prop) l x, (forall y, p y = true <-> P y) -> (find p l = Some x <-> first_of P l x).
Proof.
  intros A p P l x H. split.
  - induction l as [|y l IH]; [discriminate|]. cbn [find]. destruct (p y) eqn:E.
    + intro Q. injection Q as <-. exists [], l. split; [reflexivity|]. split; [apply H; exact E|constructor].
    + intro Q. destruct (IH Q) as (a & b & -> & X & F). exists (y :: a), b. split; [reflexivity|]. split; [exact X|].
      constructor; [|exact F]. intro K. apply H in K. congruence.
  - intros (a & b & -> & X & F). induction F as [|y a N F IH]; cbn [app find].
    + apply H in X. rewrite X. reflexivity.
    + destruct (p y) eqn:E; [apply H in E; contradiction|exact IH].
Qed.
Lemma take_while_split : forall (p : char -> bool) a c r, Forall (fun x => p x = true) a -> p c = false ->
  take_while p (a ++ c :: r) = a /\ drop_while p (a ++ c :: r) = c :: r.
Proof.
  intros p a c r F C. induction F as [|x a X F [IH1 IH2]]; cbn [app take_while drop_while]; [rewrite C; auto|]. rewrite X, IH1, IH2. auto.
Qed.
Lemma strip_suffix_app : forall p s, strip_suffix p (s ++ p) = Some s.
Proof. intros. apply strip_suffix_some. reflexivity. Qed.
Lemma strip_suffix_none : forall p s, (forall r, s <> r ++ p) -> strip_suffix p s = None.
Proof. intros p s H. destruct (strip_suffix p s) as [r|] eqn:E; [|reflexivity]. apply strip_suffix_some in E. exfalso. exact (H r E). Qed.
Lemma strip_possessive_is : forall s poss, possessive poss \/ poss = [] /\ (forall p r, possessive p -> s <> r ++ p) ->
  strip_possessive (s ++ poss) = (s, poss).
Proof.
  intros s poss [[->| ->]|[-> H]]; unfold strip_possessive.
  - change c_s with 115%N. rewrite strip_suffix_app. reflexivity.
  - change c_s with 115%N. rewrite strip_suffix_none; [rewrite strip_suffix_app; reflexivity|]. intros r Q.
    change [c_rsq; 115%N] with ([c_rsq] ++ [115%N]) in Q. change [c_sq; 115%N] with ([c_sq] ++ [115%N]) in Q.
    rewrite !app_assoc in Q. apply app_inj_tail in Q. destruct Q as [Q _]. apply app_inj_tail in Q. destruct Q as [_ Q]. discriminate.
  - rewrite app_nil_r. change c_s with 115%N. rewrite !strip_suffix_none; [reflexivity| |]; intros r Q; [apply (H [c_rsq; 115%N] r)|apply (H [c_sq; 115%N] r)]; unfold possessive; auto.
Qed.
Lemma drop_end_is : forall (p : char -> bool) a c t, p c = false -> Forall (fun x => p x = true) t -> drop_while_end p (a ++ [c] ++ t) = a ++ [c].
Proof.
  intros p a c t C F. unfold drop_while_end. rewrite !rev_app_distr. cbn [rev app]. rewrite <- app_assoc. 
  rewrite drop_while_app_all by (apply Forall_rev; exact F). cbn [app drop_while]. rewrite C. cbn [rev]. rewrite rev_involutive. reflexivity.
Qed.
Lemma dressed_found : forall w lead core trail poss, dressed U w lead core trail poss ->
  let is_lead := fun c => negb (u_alnum U c || ceq c c_at) in
  take_while is_lead w = lead /\ drop_while is_lead w = (core ++ trail) ++ poss /\ strip_possessive ((core ++ trail) ++ poss) = (core ++ trail, poss)
  /\ drop_while_end (fun c => negb (u_alnum U c)) (core ++ trail) = core /\ skipn (List.length core) (core ++ trail) = trail /\ is_nil core = false.
Proof.
  intros w lead core trail poss (-> & F & (c & r & -> & C) & (r' & e & E & Al) & T & P) is_lead.
  destruct (take_while_split is_lead lead c (r ++ trail ++ poss)) as [A B].
  { eapply Forall_impl; [|exact F]. intros x [X Y]. unfold is_lead. rewrite X. destruct (ceq_spec x c_at); [contradiction|reflexivity]. }
  { unfold is_lead. destruct C as [->| ->]; [reflexivity|]. rewrite ceq_refl, orb_true_r. reflexivity. }
  change ((c :: r) ++ trail ++ poss) with (c :: r ++ trail ++ poss).
  split; [exact A|]. split; [rewrite B; cbn [app]; rewrite <- app_assoc; reflexivity|]. split; [apply strip_possessive_is; exact P|].
  split; [|split; [|reflexivity]].
  - rewrite E, <- app_assoc. apply drop_end_is; [rewrite Al; reflexivity|]. eapply Forall_impl; [|exact T]. intros x ->. reflexivity.
  - clear. induction (c :: r) as [|x l IH]; [reflexivity|exact IH].
Qed.
Lemma found_dressed : forall w, let is_lead := fun c => negb (u_alnum U c || ceq c c_at) in
  forall stem poss, strip_possessive (drop_while is_lead w) = (stem, poss) ->
  let core := drop_while_end (fun c => negb (u_alnum U c)) stem in
  core <> [] -> dressed U w (take_while is_lead w) core (skipn (List.length core) stem) poss.
Proof.
  intros w is_lead stem poss SP core NE.
  assert (Es : exists t, stem = core ++ t /\ Forall (fun c => negb (u_alnum U c) = true) t) by apply drop_while_end_app.
  destruct Es as (t & Es & Ft).
  assert (Sk : skipn (List.length core) stem = t) by (rewrite Es, skipn_app, skipn_all, Nat.sub_diag; reflexivity). rewrite Sk.
  pose proof (strip_possessive_spec _ _ _ SP) as [Q Po].
  unfold dressed. split; [rewrite <- (drop_while_app_take is_lead w) at 1; rewrite Q, Es, <- app_assoc; reflexivity|].
  split.
  { eapply Forall_impl; [|apply (take_while_forall is_lead)]. intros x X. cbn beta in X. unfold is_lead in X. apply negb_true_iff, orb_false_iff in X.
    destruct X as [X Y]. split; [exact X|]. intros ->. rewrite ceq_refl in Y. discriminate. }
  split.
  { destruct core as [|c r] eqn:EC; [contradiction NE; reflexivity|]. exists c, r. split; [reflexivity|].
    assert (D : is_lead c = false).
    { apply (drop_while_head is_lead w c (r ++ t ++ poss)). rewrite Q, Es, <- app_assoc. reflexivity. }
    unfold is_lead in D. apply negb_false_iff, orb_true_iff in D. destruct D as [D|D]; [auto|]. destruct (ceq_spec c c_at); [auto|discriminate]. }
  split.
  { unfold core in *. unfold drop_while_end in *. destruct (drop_while (fun c => negb (u_alnum U c)) (rev stem)) as [|c r] eqn:D; [contradiction NE; reflexivity|].
    exists (rev r), c. split; [reflexivity|]. apply drop_while_head in D. destruct (u_alnum U c); [reflexivity|discriminate]. }
  split; [eapply Forall_impl; [|exact Ft]; intros x X; apply negb_true_iff in X; exact X|].
  destruct Po as [->|[->| ->]]; [right; split; [reflexivity|]|left; left; reflexivity|left; right; reflexivity].
  intros p r Hp E. rewrite <- Es in E. rewrite app_nil_r in Q. unfold strip_possessive in SP. rewrite Q, E in SP. change c_s with 115%N in SP.
  destruct Hp as [->| ->].
  - rewrite strip_suffix_app in SP. discriminate.
  - rewrite strip_suffix_app in SP. match type of SP with (match ?x with _ => _ end) = _ => destruct x end; discriminate.
Qed.
Lemma common_iff : forall core, existsb (fun n => seqb (u_lower_str U n) (u_lower_str U core)) common = true <-> is_common U common core.
Proof.
  intro core. unfold is_common. rewrite existsb_exists. split; intros (c & I & E); exists c; split; auto; apply seqb_true; exact E.
Qed.
Lemma find_noun_iff : forall w w', find_proper_noun U PN user common w = Some w' <-> named U PN user common w w'.
Proof.
  intros w w'. unfold find_proper_noun. cbv zeta.
  assert (FU : forall core x, find (fun n => seqb (u_lower_str U n) (u_lower_str U core)) user = Some x <-> first_of (fun n => lower U n = lower U core) user x)
    by (intros; apply find_first; intro; apply seqb_true).
  assert (FP : forall core x, find (fun p => seqb (snd p) (u_lower_str U core)) PN = Some x <-> first_of (fun p => snd p = lower U core) PN x)
    by (intros; apply find_first; intro; apply seqb_true).
  assert (FN : forall core, find (fun n => seqb (u_lower_str U n) (u_lower_str U core)) user = None <-> forall n, In n user -> lower U n <> lower U core).
  { intro core. split.
    - intros H n I E. pose proof (find_none _ _ H n I) as K. cbn beta in K. unfold lower in E. rewrite E, seqb_refl in K. discriminate.
    - intro H. destruct (find _ user) as [x|] eqn:E; [|reflexivity]. apply find_some in E. destruct E as [I E]. apply seqb_true in E. contradiction (H x I E). }
  split.
  - destruct (strip_possessive _) as [stem poss] eqn:SP. pose proof (found_dressed w stem poss SP) as D. cbv zeta in D.
    set (core := drop_while_end (fun c => negb (u_alnum U c)) stem) in *. set (lead := take_while _ w) in *. set (trail := skipn _ stem) in *.
    destruct (is_nil core) eqn:EN; [discriminate|]. cbn [orb]. destruct (existsb (u_alpha U) core) eqn:EA; [|discriminate]. cbn [negb].
    assert (D' : dressed U w lead core trail poss) by (apply D; destruct core; discriminate || discriminate EN).
    apply existsb_exists in EA. destruct (existsb _ common) eqn:EC; [discriminate|].
    assert (NC : ~ is_common U common core) by (intro Q; apply common_iff in Q; congruence).
    destruct (find _ user) as [n|] eqn:E1.
    + intro H. injection H as <-. exists lead, core, trail, poss, n. repeat (split; [assumption|]). split; [|reflexivity].
      apply known_user. apply FU. exact E1.
    + destruct (find _ PN) as [p|] eqn:E2; [|discriminate]. intro H. injection H as <-. exists lead, core, trail, poss, (fst p).
      repeat (split; [assumption|]). split; [|reflexivity]. apply known_list; [apply FN; exact E1|apply FP; exact E2].
  - intros (lead & core & trail & poss & n & D & L & NC & K & ->). destruct (dressed_found _ _ _ _ _ D) as (A & B & SP & C & T & NE).
    rewrite A, B, SP, C, T, NE. cbn [orb]. replace (existsb (u_alpha U) core) with true by (symmetry; apply existsb_exists; exact L).
    cbn [negb]. destruct (existsb _ common) eqn:EC; [apply common_iff in EC; contradiction|].
    destruct K as [n K|p N K].
    + apply FU in K. rewrite K. reflexivity.
    + apply FN in N. apply FP in K. rewrite N, K. reflexivity.
Qed.
Lemma find_noun_none : forall w, find_proper_noun U PN user common w = None -> forall v, ~ named U PN user common w v.
Proof. intros w H v P. apply find_noun_iff in P. congruence. Qed.

Lemma simple_cased : forall first w, no_f w -> cased U PN user common first w (process_word_simple U PN user common first w).
Proof.
  intros first w N. unfold process_word_simple. destruct w as [|c r]; [apply cased_nil|]. cbn [is_nil]. set (w := c :: r) in *.
  replace (contains_char c_fffd w) with false by (symmetry; apply contains_char_false; exact N).
  destruct (all_upper U w) eqn:A; [apply cased_kept; left; apply all_upper_iff; exact A|].
  assert (A' : ~ shouted U w) by (intro Q; apply all_upper_iff in Q; congruence).
  destruct (is_acronym U w) eqn:B; [apply cased_kept; right; apply is_acronym_iff; exact B|].
  assert (B' : ~ acronym U w) by (intro Q; apply is_acronym_iff in Q; congruence).
  destruct (pronoun_i w) as [v|] eqn:P; [apply cased_pronoun; auto; apply pronoun_iff; exact P|].
  destruct (find_proper_noun U PN user common w) as [v|] eqn:F.
  - apply cased_noun; auto; [apply pronoun_none; exact P|apply find_noun_iff; exact F].
  - change (if first then capitalize_first U w else u_lower_str U w) with (if first then capital U w else lower U w).
    apply cased_plain; auto; [discriminate|apply pronoun_none; exact P|apply find_noun_none; exact F].
Qed.
Lemma parts_ok : forall first ps, ps <> [] -> Forall no_f ps -> parts_cased U PN user common first ps (process_parts U PN user common first ps).
Proof.
  intros first [|p ps] NE F; [contradiction NE; reflexivity|]. inversion F; subst. cbn [process_parts]. constructor; [apply simple_cased; assumption|].
  clear - H2 letter_s no_letter_dot. induction H2 as [|x l X F IH]; constructor; [apply simple_cased; exact X|exact IH].
Qed.
Lemma parts_no_f : forall c w, no_f w -> Forall no_f (split_on c w).
Proof.
  intros c w N. apply Forall_forall. intros p I J. apply N. 
  assert (G : forall s q, In q (split_on c s) -> In c_fffd q -> In c_fffd s).
  { clear. induction s as [|x s IH]; intros q I J; cbn [split_on] in I; [destruct I as [<-|[]]; exact J|].
    destruct (ceq x c); [destruct I as [<-|I]; [destruct J|right; exact (IH _ I J)]|].
    destruct (split_on c s) as [|q' qs] eqn:E; [destruct I as [<-|[]]; destruct J as [J|[]]; left; exact J|].
    destruct I as [<-|I]; [|right; apply (IH q); [right; exact I|exact J]].
    destruct J as [J|J]; [left; exact J|right; apply (IH q'); [left; reflexivity|exact J]]. }
  exact (G _ _ I J).
Qed.
Lemma split_joined : forall c w, joined_by c w (split_on c w).
Proof.
  intros c w. split; [symmetry; apply join_split_on|]. eapply Forall_impl; [|apply split_on_forall]. intros p F I. rewrite Forall_forall in F. exact (F _ I eq_refl).
Qed.
Lemma word_ok : forall first w, no_f w -> word_cased U PN user common first w (process_word U PN user common first w).
Proof.
  intros first w N. unfold process_word. cbv zeta.
  destruct (contains_char c_dash w) eqn:D; cbn [orb].
  - apply contains_char_true in D. destruct (find_proper_noun U PN user common w) as [v|] eqn:F.
    + apply word_named; [auto|apply find_noun_iff; exact F].
    + eapply word_hyphen; [exact D|apply find_noun_none; exact F|apply split_joined|]. apply parts_ok; [apply split_on_nonempty|apply parts_no_f; exact N].
  - apply contains_char_false in D. destruct (contains_char c_slash w) eqn:Sl.
    + apply contains_char_true in Sl. destruct (find_proper_noun U PN user common w) as [v|] eqn:F.
      * apply word_named; [auto|apply find_noun_iff; exact F].
      * eapply word_slash; [exact D|exact Sl|apply find_noun_none; exact F|apply split_joined|]. apply parts_ok; [apply split_on_nonempty|apply parts_no_f; exact N].
    + apply contains_char_false in Sl. apply word_plain; [exact D|exact Sl|apply simple_cased; exact N].
Qed.

(** ** Text *)
Lemma delim_iff : forall c, is_delim c = true <-> delimiter c.
Proof.
  intro c. unfold is_delim, delimiter. cbn [In]. rewrite !orb_true_iff, !ceq_true.
  split; [intros [[[->| ->]| ->]| ->]; auto|intros [<-|[<-|[<-|[<-|[]]]]]; auto].
Qed.
Lemma chars_ok : forall s cur count first behind out f, no_f (rev cur ++ s) -> Forall in_word cur -> (first = true -> count = 0) ->
  process_chars U PN user common cur count first behind s = (out, f) ->
  exists cs, chunks (rev cur ++ s) cs /\ spoken U PN user common first behind cs out f
    /\ (cur = [] -> match s with c :: _ => is_ws c = true \/ is_delim c = true | [] => True end -> match cs with Word _ :: _ => False | _ => True end).
Proof.
  induction s as [|c r IH]; intros cur count first behind out f N F H E; cbn [process_chars] in E.
  - rewrite app_nil_r in *. destruct cur as [|x cur']; cbn [is_nil] in E.
    + injection E as <- <-. exists []. split; [constructor|]. split; [constructor|auto].
    + set (cur := x :: cur') in *. injection E as <- <-. exists [Word (rev cur)]. split.
      * rewrite <- (app_nil_r (rev cur)) at 1. apply chunks_word; [intro Q; apply (f_equal (@rev _)) in Q; rewrite rev_involutive in Q; discriminate|apply Forall_rev; exact F|exact Logic.I|constructor].
      * split; [|discriminate]. rewrite <- (app_nil_r (process_word _ _ _ _ _ _)). apply spoken_word; [|constructor].
        replace (first || _) with (should_capitalize U count first behind (rev cur)); [apply word_ok; exact N|].
        unfold should_capitalize. destruct first; [rewrite (H eq_refl); reflexivity|]. rewrite andb_false_r. destruct behind; reflexivity.
  - assert (Nr : no_f r) by (apply no_f_app in N; destruct N as [_ N]; apply no_f_cons in N; tauto).
    destruct (is_ws c) eqn:W.
    + destruct cur as [|x cur']; cbn [is_nil] in E.
      * destruct (process_chars U PN user common [] count first behind r) as [o f0] eqn:P. injection E as <- <-.
        destruct (IH [] count first behind o f0 Nr ltac:(constructor) H P) as (cs & C & Sp & _).
        exists (Gap c :: cs). split; [apply chunks_gap; assumption|]. split; [apply spoken_gap; exact Sp|auto].
      * set (cur := x :: cur') in *. destruct (process_chars U PN user common [] (S count) false false r) as [o f0] eqn:P. injection E as <- <-.
        destruct (IH [] (S count) false false o f0 Nr ltac:(constructor) ltac:(discriminate) P) as (cs & C & Sp & _).
        exists (Word (rev cur) :: Gap c :: cs). split.
        -- apply chunks_word; [intro Q; apply (f_equal (@rev _)) in Q; rewrite rev_involutive in Q; discriminate|apply Forall_rev; exact F|exact Logic.I|]. apply chunks_gap; assumption.
        -- split; [|discriminate]. apply spoken_word; [|apply spoken_gap; exact Sp].
           replace (first || _) with (should_capitalize U count first behind (rev cur)); [apply word_ok; apply no_f_app in N; tauto|].
           unfold should_capitalize. destruct first; [rewrite (H eq_refl); reflexivity|]. rewrite andb_false_r. destruct behind; reflexivity.
    + destruct (is_delim c) eqn:D.
      * destruct cur as [|x cur']; cbn [is_nil] in E.
        -- destruct (process_chars U PN user common [] count first true r) as [o f0] eqn:P. injection E as <- <-.
           destruct (IH [] count first true o f0 Nr ltac:(constructor) H P) as (cs & C & Sp & _).
           exists (Stop c :: cs). split; [apply chunks_stop; [exact W|apply delim_iff; exact D|exact C]|]. split; [apply spoken_stop; exact Sp|auto].
        -- set (cur := x :: cur') in *. destruct (process_chars U PN user common [] (S count) false true r) as [o f0] eqn:P. injection E as <- <-.
           destruct (IH [] (S count) false true o f0 Nr ltac:(constructor) ltac:(discriminate) P) as (cs & C & Sp & _).
           exists (Word (rev cur) :: Stop c :: cs). split.
           ++ apply chunks_word; [intro Q; apply (f_equal (@rev _)) in Q; rewrite rev_involutive in Q; discriminate|apply Forall_rev; exact F|exact Logic.I|].
              apply chunks_stop; [exact W|apply delim_iff; exact D|exact C].
           ++ split; [|discriminate]. apply spoken_word; [|apply spoken_stop; exact Sp].
              replace (first || _) with ((count =? 0) && first); [apply word_ok; apply no_f_app in N; tauto|].
              destruct first; [rewrite (H eq_refl); reflexivity|]. rewrite andb_false_r. reflexivity.
      * destruct (IH (c :: cur) count first behind out f) as (cs & C & Sp & _); [cbn [rev]; rewrite <- app_assoc; exact N| |exact H|exact E|].
        -- constructor; [|exact F]. split; [exact W|]. intro Q. apply delim_iff in Q. congruence.
        -- cbn [rev] in C. rewrite <- app_assoc in C. exists cs. split; [exact C|]. split; [exact Sp|]. intros _ [Q|Q]; congruence.
Qed.

(** ** Multi-word nouns *)
Lemma opt_alnum_iff : forall x, opt_alnum U x = true <-> word_char U x.
Proof.
  intros [c|]; cbn [opt_alnum]; unfold word_char; split.
  - intro H. exists c. auto.
  - intros (d & Q & H). injection Q as <-. exact H.
  - discriminate.
  - intros (d & Q & _). discriminate.
Qed.
Lemma scan_never : forall key n rest prev pos last pre start, prev = last_char (start ++ rev pre) ->
  (forall a b c, start ++ rev pre ++ rest = a ++ b ++ c -> List.length b = n -> ~ word_char U (hd_error (rev a)) -> ~ word_char U (hd_error c) ->
     matches_ignoring_apostrophes U b key = false) ->
  exists l, scan_noun U key n prev pos last pre rest = Missing l.
Proof.
  intros key n rest. induction rest as [|c r IH]; intros prev pos last pre start P H; cbn [scan_noun]; [eauto|].
  destruct (List.length (firstn n (c :: r)) =? n) eqn:L; cbn [negb]; [|eauto].
  assert (Step : forall pos last, exists l, scan_noun U key n (Some c) pos last (c :: pre) r = Missing l).
  { intros pos' last'. apply (IH _ _ _ _ start); [cbn [rev]; rewrite app_assoc; symmetry; apply last_char_snoc|].
    cbn [rev]. intros a b d E. apply H. rewrite <- E, <- !app_assoc. reflexivity. }
  destruct (matches_ignoring_apostrophes U (firstn n (c :: r)) key) eqn:M; [|apply Step].
  destruct (opt_alnum U prev) eqn:A; cbn [negb andb]; [apply Step|].
  destruct (opt_alnum U (hd_error (skipn n (c :: r)))) eqn:B; cbn [negb]; [apply Step|].
  exfalso. rewrite (H (start ++ rev pre) (firstn n (c :: r)) (skipn n (c :: r))) in M; [discriminate| | | |].
  - rewrite firstn_skipn, <- app_assoc. reflexivity.
  - apply Nat.eqb_eq. exact L.
  - intro Q. apply opt_alnum_iff in Q. rewrite P in A. unfold last_char in A. congruence.
  - intro Q. apply opt_alnum_iff in Q. congruence.
Qed.
Lemma loop_never : forall canonical key fuel start rest reps,
  (forall a b c, start ++ rest = a ++ b ++ c -> List.length b = List.length key -> ~ word_char U (hd_error (rev a)) -> ~ word_char U (hd_error c) ->
     matches_ignoring_apostrophes U b key = false) ->
  noun_loop U fuel canonical key start rest reps = (start ++ rest, reps).
Proof.
  intros canonical key fuel. induction fuel as [|k IH]; intros start rest reps H; cbn [noun_loop]; [reflexivity|].
  destruct (scan_never key (List.length key) rest (last_char start) 0 0 [] start) as [l ->];
    [cbn [rev]; rewrite app_nil_r; reflexivity|exact H|].
  destruct (0 <? l); [|reflexivity]. rewrite IH; rewrite <- app_assoc, firstn_skipn; [reflexivity|exact H].
Qed.
Lemma straighten : forall s, normalize_apostrophes s = straight s.
Proof.
  unfold normalize_apostrophes, straight, replace_char. induction s as [|c s IH]; [reflexivity|]. cbn [flat_map map]. rewrite IH.
  change (ceq c c_rsq) with (N.eqb c 8217). destruct (N.eqb c 8217); reflexivity.
Qed.
Lemma unnamed_same : forall t, unnamed U PN user common t -> replace_multiword U t (collect_multiword U PN user common) = (t, []).
Proof.
  intros t [_ H]. 
  assert (A : Forall (fun p => forall a b c, t = a ++ b ++ c -> List.length b = List.length (snd p) -> ~ word_char U (hd_error (rev a)) -> ~ word_char U (hd_error c) ->
     matches_ignoring_apostrophes U b (snd p) = false) (collect_multiword U PN user common)).
  { unfold collect_multiword. cbv zeta. match goal with |- Forall ?X _ => set (P := X) end.
    assert (G : forall l, (forall n, In n l -> In n (map fst PN ++ user)) -> Forall P (multiword_of U (map (u_lower_str U) common) l)).
    { intros l Inc. apply Forall_forall. intros [n key] I. unfold multiword_of in I. apply in_flat_map in I. destruct I as (x & Ix & I).
      destruct (contains_char c_sp x) eqn:C; [|destruct I]. cbv zeta in I. destruct (existsb (seqb (u_lower_str U x)) (map (u_lower_str U) common)) eqn:Ex; [destruct I|].
      destruct I as [I|[]]. injection I as <- <-. intros a b c E L W1 W2. cbn [snd] in *.
      unfold matches_ignoring_apostrophes. rewrite !straighten. destruct (seqb _ _) eqn:Q; [|reflexivity]. exfalso. apply seqb_true in Q.
      refine (H x a b c (Inc x Ix) _ _ E L W1 W2 Q); [apply contains_char_true; exact C|].
      intros (y & Iy & Ey). assert (existsb (seqb (u_lower_str U x)) (map (u_lower_str U) common) = true); [|congruence].
      apply existsb_exists. exists (u_lower_str U y). split; [apply in_map; exact Iy|]. apply seqb_true. symmetry. exact Ey. }
    assert (G2 : Forall P (multiword_of U (map (u_lower_str U) common) (map fst PN) ++ multiword_of U (map (u_lower_str U) common) user)).
    { apply Forall_app. split; apply G; intros n I; apply in_or_app; auto. }
    assert (G3 : forall l acc, Forall P acc -> Forall P l -> Forall P (fold_left (fun acc x => insert_noun x acc) l acc)).
    { clear. induction l as [|x l IH]; intros acc Ha G2; cbn [fold_left]; [exact Ha|]. inversion G2 as [|x0 l0 X0 L0]. apply IH; [apply insert_noun_forall; assumption|exact L0]. }
    apply G3; [constructor|exact G2]. }
  unfold replace_multiword. revert A. generalize (collect_multiword U PN user common). intros l F.
  induction F as [|p l X F IH]; [reflexivity|]. cbn [fold_left fst snd]. rewrite loop_never; [exact IH|exact X].
Qed.
Lemma text_ok : forall first t o f, process_text U PN user common first t = (o, f) ->
  unnamed U PN user common t -> exists cs, chunks t cs /\ spoken U PN user common first false cs o f.
Proof.
  intros first t o f E H. unfold process_text in E. rewrite (unnamed_same t H) in E.
  destruct (process_chars U PN user common [] 0 first false t) as [out f0] eqn:P. injection E as <- <-.
  destruct (chars_ok t [] 0 first false out f0) as (cs & C & Sp & _); auto; [exact (proj1 H)|]. exists cs. auto.
Qed.

(** ** Quotation marks *)
Lemma opt_alpha_iff : forall x, opt_alpha U x = true <-> a_letter U x.
Proof.
  intros [c|]; cbn [opt_alpha]; unfold a_letter; split.
  - intro H. exists c. auto.
  - intros (d & Q & H). injection Q as <-. exact H.
  - discriminate.
  - intros (d & Q & _). discriminate.
Qed.
Lemma decade_iff : forall r, decade_ahead r = true <-> decade r.
Proof.
  intro r. unfold decade_ahead, decade. split.
  - destruct r as [|a [|b [|c r]]]; try discriminate. intro H. apply andb_prop in H. destruct H as [H C]. apply andb_prop in H. destruct H as [A B].
    apply ceq_true in C. subst c. exists a, b, r. auto.
  - intros (a & b & q & -> & A & B). rewrite A, B. reflexivity.
Qed.
Lemma boundary_letter : forall r, s_boundary U r = true -> opt_alpha U (hd_error r) = true.
Proof.
  intros [|a [|b r]] H; [discriminate| |]; cbn in *; [apply ceq_true in H|apply andb_prop in H; destruct H as [H _]; apply ceq_true in H]; subst a; exact letter_s.
Qed.
Lemma opening_iff : forall prev r,
  opt_opener prev && opt_alnum U (hd_error r) || match prev with None => true | Some _ => false end && opt_alnum U (hd_error r) = true
  <-> opening U prev r.
Proof.
  intros prev r. unfold opening, opens_after. rewrite <- andb_orb_distrib_l, andb_true_iff, opt_alnum_iff, orb_true_iff. 
  apply and_iff_compat_r. destruct prev as [c|]; cbn [opt_opener].
  - rewrite !orb_true_iff, !ceq_true. split.
    + intros [[[A|A]|A]|A]; try discriminate; right; exists c; auto.
    + intros [A|(d & Q & A)]; [discriminate|]. injection Q as <-. tauto.
  - split; auto.
Qed.
Lemma turned_ok : forall s prev opened, turned U prev opened s (normalize_quotes_from U prev opened s).
Proof.
  induction s as [|c r IH]; intros prev opened; cbn [normalize_quotes_from]; [constructor|].
  destruct (ceq_spec c c_sq) as [->|N1].
  - unfold single_quote.
    replace (opt_alpha U (hd_error r) || s_boundary U r) with (opt_alpha U (hd_error r))
      by (destruct (s_boundary U r) eqn:B; [rewrite (boundary_letter r B); reflexivity|rewrite orb_false_r; reflexivity]).
    destruct (decade_ahead r && negb (opt_alnum U prev)) eqn:A1.
    { apply turned_apostrophe; [|apply IH]. left. apply andb_prop in A1. destruct A1 as [A B]. apply decade_iff in A. split; [|exact A].
      intro Q. apply opt_alnum_iff in Q. rewrite Q in B. discriminate. }
    destruct (opt_alpha U prev && opt_alpha U (hd_error r)) eqn:A2.
    { apply turned_apostrophe; [|apply IH]. right. left. apply andb_prop in A2. destruct A2 as [A B]. split; apply opt_alpha_iff; assumption. }
    destruct (opt_alpha U prev && match r with x :: _ => is_ws x | [] => false end && negb opened) eqn:A3.
    { apply turned_apostrophe; [|apply IH]. right. right. apply andb_prop in A3. destruct A3 as [A3 C]. apply andb_prop in A3. destruct A3 as [A B].
      split; [apply opt_alpha_iff; exact A|]. split; [destruct opened; [discriminate|reflexivity]|]. destruct r as [|x r]; [discriminate|]. exists x. auto. }
    assert (NA : ~ apostrophe U prev opened r).
    { intros [[A B]|[[A B]|(A & -> & x & B & C)]].
      - apply decade_iff in B. rewrite B in A1. destruct (opt_alnum U prev) eqn:E; [apply A, opt_alnum_iff; exact E|discriminate].
      - apply opt_alpha_iff in A, B. rewrite A, B in A2. discriminate.
      - apply opt_alpha_iff in A. rewrite A in A3. destruct r as [|y r]; [discriminate|]. injection B as ->. rewrite C in A3. discriminate. }
    destruct (opt_opener prev && opt_alnum U (hd_error r)) eqn:A4;
      [apply turned_left; [exact NA|apply opening_iff; rewrite A4; reflexivity|apply IH]|].
    match goal with |- context [if ?b then _ else _] => destruct b eqn:A5 end;
      [apply turned_left; [exact NA|apply opening_iff; rewrite A5, orb_true_r; reflexivity|apply IH]|].
    apply turned_right; [exact NA| |apply IH]. intro Q. apply opening_iff in Q. rewrite A4, A5 in Q. discriminate.
  - destruct (ceq_spec c c_dq) as [->|N2].
    + unfold double_quote. destruct (opt_opener prev && opt_alnum U (hd_error r)) eqn:A4;
        [apply turned_left2; [apply opening_iff; rewrite A4; reflexivity|apply IH]|].
      match goal with |- context [if ?b then _ else _] => destruct b eqn:A5 end;
        [apply turned_left2; [apply opening_iff; rewrite A5, orb_true_r; reflexivity|apply IH]|].
      apply turned_right2; [|apply IH]. intro Q. apply opening_iff in Q. rewrite A4, A5 in Q. discriminate.
    + apply turned_other; [exact N1|exact N2|apply IH].
Qed.

(** ** Quotations *)
Definition tok (g : segment) : token := match g with Plain t => TextTok t | Quoted d q => Quote q d end.
Lemma text_tok_plain : forall cur, text_tok cur = map tok (plain (rev cur)).
Proof.
  intros [|c cur]; [reflexivity|]. unfold text_tok. cbn [is_nil]. destruct (rev (c :: cur)) eqn:E; [|reflexivity].
  apply (f_equal (@rev _)) in E. rewrite rev_involutive in E. discriminate.
Qed.
Lemma unopened_snoc : forall t c, unopened t -> c <> c_ldq -> c <> c_lsq -> unopened (t ++ [c]).
Proof. intros t c [A B] N1 N2. split; intro I; apply in_app_iff in I; destruct I as [I|[I|[]]]; auto. Qed.
Lemma cut_ok : forall s,
  (forall cur, unopened (rev cur) -> exists l, tokenize_quotes_from None cur s = map tok l /\ cut (rev cur ++ s) l)
  /\ (forall d q cur t, ~ In (right_mark d) (rev q) -> unopened t ->
       exists l, tokenize_quotes_from (Some (d, q)) cur s = map tok l /\ cut (t ++ [left_mark d] ++ rev q ++ s) (plain t ++ l)).
Proof.
  induction s as [|c r [IH1 IH2]]; cbn [tokenize_quotes_from]; split.
  - intros cur Un. exists (plain (rev cur)). rewrite app_nil_r. split; [apply text_tok_plain|apply cut_end; exact Un].
  - intros d q cur t N Un. exists [Plain (left_mark d :: rev q)]. split; [reflexivity|]. rewrite app_nil_r. apply cut_open; assumption.
  - intros cur Un. destruct (ceq_spec c c_ldq) as [->|N1].
    { destruct (IH2 true [] [] (rev cur)) as (l & E & C); [intros []|exact Un|]. exists (plain (rev cur) ++ l).
      rewrite map_app, <- text_tok_plain, E. split; [reflexivity|exact C]. }
    destruct (ceq_spec c c_lsq) as [->|N2].
    { destruct (IH2 false [] [] (rev cur)) as (l & E & C); [intros []|exact Un|]. exists (plain (rev cur) ++ l).
      rewrite map_app, <- text_tok_plain, E. split; [reflexivity|exact C]. }
    destruct (IH1 (c :: cur)) as (l & E & C); [cbn [rev]; apply unopened_snoc; assumption|]. exists l. split; [exact E|].
    cbn [rev] in C. rewrite <- app_assoc in C. exact C.
  - intros d q cur t N Un. fold (right_mark d). destruct (ceq_spec c (right_mark d)) as [->|N1].
    + destruct (IH1 []) as (l & E & C); [split; intros []|]. exists (Quoted d (rev q) :: l). split; [cbn [map tok]; rewrite E; reflexivity|].
      apply cut_quote; assumption.
    + destruct (IH2 d (c :: q) cur t) as (l & E & C); [cbn [rev]; intro I; apply in_app_iff in I; destruct I as [I|[I|[]]]; [exact (N I)|congruence]|exact Un|].
      exists l. split; [exact E|]. cbn [rev] in C. rewrite <- !app_assoc in C. exact C.
Qed.
Lemma tokens_cut : forall s, exists l, tokenize_quotes s = map tok l /\ cut s l.
Proof. intro s. destruct (proj1 (cut_ok s) []) as (l & E & C); [split; intros []|]. exists l. split; [exact E|exact C]. Qed.
Lemma plain_quote : forall t d x, ~ In (Quoted d x) (plain t).
Proof. intros [|c t] d x; [intros []|intros [I|[]]; discriminate]. Qed.
Lemma cut_short : forall s l, cut s l -> forall d x, In (Quoted d x) l -> List.length x < List.length s.
Proof.
  induction 1 as [t Un|t d q r l Un N C IH|t d q Un N]; intros d0 x I.
  - destruct (plain_quote _ _ _ I).
  - rewrite !app_length. cbn [List.length]. apply in_app_iff in I. destruct I as [I|[I|I]]; [destruct (plain_quote _ _ _ I)|injection I as -> ->; lia|].
    apply IH in I. lia.
  - apply in_app_iff in I. destruct I as [I|[I|[]]]; [destruct (plain_quote _ _ _ I)|discriminate].
Qed.
Definition token_step (inside : bool) (q : str -> bool -> str) (st : str * bool) (t : token) : str * bool :=
  match t with
  | CodeSpan x => (fst st ++ x, if inside then snd st else false)
  | Quote x d => (fst st ++ q x d, if inside then false else snd st)
  | TextTok x => let '(out, f) := process_text U PN user common (snd st) x in (fst st ++ out, f)
  end.
Lemma said_ok : forall inside q l, (forall d x, In (Quoted d x) l -> quoted U PN user common d x (q x d)) -> forall acc first,
  exists o f, fold_left (token_step inside q) (map tok l) (acc, first) = (acc ++ o, f) /\ said U PN user common inside first l o f.
Proof.
  intros inside q l. induction l as [|g l IH]; intros H acc first.
  - exists [], first. cbn [map fold_left]. rewrite app_nil_r. split; [reflexivity|constructor].
  - assert (H' : forall d x, In (Quoted d x) l -> quoted U PN user common d x (q x d)) by (intros d x I; apply H; right; exact I).
    destruct g as [t|d x]; cbn [map tok fold_left]; unfold token_step at 2; cbn [fst snd].
    + destruct (process_text U PN user common first t) as [o f] eqn:P. destruct (IH H' (acc ++ o) f) as (o2 & f2 & E & Sd).
      exists (o ++ o2), f2. split; [etransitivity; [exact E|rewrite <- app_assoc; reflexivity]|]. eapply said_plain; [apply text_ok; exact P|exact Sd].
    + destruct (IH H' (acc ++ q x d) (if inside then false else first)) as (o2 & f2 & E & Sd).
      exists (q x d ++ o2), f2. split; [etransitivity; [exact E|rewrite <- app_assoc; reflexivity]|]. apply said_quote; [apply H; left; reflexivity|exact Sd].
Qed.
Lemma find_letter : forall q, find (u_alpha U) q = hd_error (letters U q).
Proof. induction q as [|c q IH]; [reflexivity|]. unfold letters in *. cbn [find filter]. destruct (u_alpha U c); [reflexivity|exact IH]. Qed.
Lemma quoted_ok : forall k content d, List.length content < k -> quoted U PN user common d content (process_quoted U PN k user common content d).
Proof.
  induction k as [|k IH]; intros content d L; [lia|]. cbn [process_quoted]. fold (left_mark d) (right_mark d).
  destruct (is_nil content) eqn:EN.
  { apply is_nil_true in EN. subst content. apply quoted_kept. intros (c & r & E & _). discriminate. }
  rewrite find_letter. destruct (letters U content) as [|a r] eqn:EL; cbn [hd_error].
  { apply quoted_kept. intros (c & r & E & _). congruence. }
  destruct (u_upper U a) eqn:Up.
  - destruct (tokens_cut content) as (l & E & C). rewrite E.
    destruct (said_ok true (process_quoted U PN k user common) l) with (acc := @nil char) (first := true) as (o & f & F & Sd).
    { intros d0 x I. apply IH. pose proof (cut_short _ _ C _ _ I). lia. }
    apply (f_equal fst) in F. match goal with |- context [fst ?X] => replace (fst X) with o by (symmetry; exact F) end.
    eapply quoted_sentence; [exists a, r; auto|exact C|exact Sd].
  - apply quoted_kept. intros (c & r' & E & Q). congruence.
Qed.

(** ** Headings *)
Lemma text_sentence : forall cur acc first, exists t' l o f, turned U None false (rev cur) t' /\ cut t' l /\ said U PN user common false first l o f
  /\ fold_left (sentence_step U PN user common) (text_tokens U cur) (acc, first) = (acc ++ o, f).
Proof.
  intros cur acc first. unfold text_tokens. destruct (is_nil cur) eqn:EN.
  - apply is_nil_true in EN. subst cur. exists [], [], [], first. cbn [rev fold_left]. rewrite app_nil_r.
    split; [constructor|]. split; [exact (cut_end [] (conj (fun i => i) (fun i => i)))|]. split; [constructor|reflexivity].
  - destruct (tokens_cut (normalize_quotes U (rev cur))) as (l & E & C).
    destruct (said_ok false (fun x d => process_quoted U PN (S (List.length x)) user common x d) l) with (acc := acc) (first := first) as (o & f & F & Sd).
    { intros d x _. apply quoted_ok. lia. }
    exists (normalize_quotes U (rev cur)), l, o, f. split; [apply turned_ok|]. split; [exact C|]. split; [exact Sd|]. rewrite E. exact F.
Qed.
Lemma sentence_from : forall s (code : option str) cur acc first, exists out f,
  fold_left (sentence_step U PN user common) (tokenize_from U code cur s) (acc, first) = (acc ++ out, f)
  /\ sentence U PN user common first (match code with None => code_pieces false cur s | Some k => code_pieces true k s end) out.
Proof.
  induction s as [|c r IH]; intros code cur acc first; cbn [tokenize_from code_pieces].
  - destruct code as [k|].
    + exists (rev k ++ []), false. cbn [fold_left sentence_step fst snd]. rewrite app_nil_r. split; [reflexivity|]. rewrite <- (app_nil_r (rev k)) at 2. apply sentence_code. constructor.
    + destruct (text_sentence cur acc first) as (t' & l & o & f & T & C & Sd & E). exists (o ++ []), f. rewrite E, app_nil_r. split; [reflexivity|].
      rewrite <- (app_nil_r o). eapply sentence_text; [exact T|exact C|exact Sd|constructor].
  - change (N.eqb c 96) with (ceq c c_bt). destruct code as [k|].
    + destruct (ceq c c_bt) eqn:B.
      * cbn [fold_left]. destruct (IH None [] (acc ++ rev (c :: k)) false) as (out & f & E & Sn). exists (rev (c :: k) ++ out), f. split.
        -- etransitivity; [exact E|rewrite <- app_assoc; reflexivity].
        -- apply sentence_code. exact Sn.
      * apply IH.
    + destruct (ceq c c_bt) eqn:B; [|apply IH]. apply ceq_true in B. subst c.
      rewrite fold_left_app. destruct (text_sentence cur acc first) as (t' & l & o & f & T & C & Sd & E). rewrite E.
      destruct (IH (Some [c_bt]) [] (acc ++ o) f) as (out & f2 & E2 & Sn). exists (o ++ out), f2. split; [etransitivity; [exact E2|rewrite <- app_assoc; reflexivity]|].
      eapply sentence_text; [exact T|exact C|exact Sd|exact Sn].
Qed.
Theorem sentence_case_ok : forall text, sentence U PN user common true (pieces text) (to_sentence_case U PN user common text).
Proof.
  intro text. unfold to_sentence_case. destruct (is_nil text) eqn:EN.
  - apply is_nil_true in EN. subst text. change (sentence U PN user common true [(false, [])] ([] ++ [])).
    eapply sentence_text; [constructor|exact (cut_end [] (conj (fun i => i) (fun i => i)))|constructor|constructor].
  - destruct (sentence_from text None [] [] true) as (out & f & E & Sn). unfold tokenize_with_code_spans. apply (f_equal fst) in E. match goal with |- sentence _ _ _ _ _ _ ?X => replace X with out by (symmetry; exact E) end. exact Sn.
Qed.
End Proof.
