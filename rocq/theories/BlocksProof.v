(** The reader of [SpecBlocks]: it gives one result, and how blocks written one
    after the other are read. *)
From Coq Require Import Bool Arith NArith Lia ZifyBool ZifyNat ZifyN String List.
From Verif Require Import Base BaseFacts SpecCode SpecHeading SpecRefs SpecWrap TableModel SpecTable SpecBlocks CodeProof.
Import ListNotations.

(** ** More fuel does not change the result *)
Definition below (f g : list str -> option (list block)) : Prop := forall ls bs, f ls = Some bs -> g ls = Some bs.
Lemma add_block_some : forall b x bs, add_block b x = Some bs <-> exists bs', x = Some bs' /\ bs = b :: bs'.
Proof.
  intros b [x|] bs; cbn; split; intro H.
  - injection H as <-. eauto.
  - destruct H as (? & H & ->). injection H as <-. reflexivity.
  - discriminate.
  - destruct H as (? & H & _). discriminate.
Qed.
Lemma step_mono : forall f g, below f g -> below (read_step f) (read_step g).
Proof.
  intros f g H ls bs. unfold read_step. destruct ls as [|l r]; [auto|].
  destruct (is_blank l); [apply H|].
  assert (A : forall b x, add_block b (f x) = Some bs -> add_block b (g x) = Some bs).
  { intros b x E. apply add_block_some in E. destruct E as (y & E & ->). rewrite (H _ _ E). reflexivity. }
  destruct (margin l) as [s|].
  2:{ destruct ((4 <=? run_len c_sp l) && negb (tabbed l)); [|auto]. unfold read_verbatim. destruct (verbatim_span (l :: r)). apply A. }
  destruct (is_some (opening_fence l)).
  { unfold read_code. destruct (read_fenced (l :: r)) as [[[i b] rest]|]; auto. }
  destruct (is_rule s); [apply A|]. destruct (read_atx s) as [[lv t]|]; [apply A|].
  destruct (starts_quote s).
  { unfold read_quote. destruct (quote_span (l :: r)) as [[inner rest]|]; auto.
    destruct (quote_sort_of (hd [] inner)); auto.
    - destruct (f inner) eqn:E; [|discriminate]. rewrite (H _ _ E). apply A.
    - destruct (f (tl inner)) eqn:E; [|discriminate]. rewrite (H _ _ E). apply A. }
  destruct (is_some (marker_of s)).
  { unfold read_item. destruct (item_line l) as [[[m w] c]|]; auto. destruct (item_lines w c r) as [[inner rest]|]; auto.
    destruct (first_box inner) as [[box inner']|]; auto.
    destruct (f inner') eqn:E1; [|discriminate]. destruct (f rest) eqn:E2; [|discriminate].
    rewrite (H _ _ E1), (H _ _ E2). auto. }
  destruct (html_line s).
  { unfold read_html. destruct (html_sort_of s); auto.
    - destruct (comment_span (l :: r)) as [[body rest]|]; auto.
    - destruct (tag_span (l :: r)) as [body rest]. apply A. }
  destruct (note_head s) as [[name content]|].
  { unfold read_note. destruct (note_span false r) as [[inner rest]|]; auto. destruct (f (content :: inner)) eqn:E; [|discriminate].
    rewrite (H _ _ E). apply A. }
  destruct (strange s); auto. destruct (read_definition (s ++ [c_nl])) as [[[label url] title]|].
  { unfold read_definitions. destruct r as [|l' r']; auto. destruct (is_blank l' || starts_with [c_lbr] l'); auto. }
  unfold read_paragraph. destruct (continuation r) as [[[more u] rest]|].
  2:{ unfold read_table. destruct r as [|d r']; auto. destruct (read_row l) as [cells|]; auto. destruct (read_delimiter_row d) as [columns|]; auto.
      destruct (_ =? _); auto. destruct (row_span _ r') as [[rows rest]|]; auto. }
  destruct (starts_with [c_lbr] s && existsb defines (l :: more)); auto. destruct u; [destruct more; auto|].
  unfold read_text. destruct (details_next rest) as [[[w content] r']|]; [|apply A]. destruct (item_span w false r') as [[inner rest']|]; auto.
  destruct (f (content :: inner)) eqn:E1; [|discriminate]. destruct (f rest') eqn:E2; [|discriminate].
  rewrite (H _ _ E1), (H _ _ E2). auto.
Qed.
Lemma take_while_drop : forall f s, skipn (List.length (take_while f s)) s = drop_while f s.
Proof. intros f s. induction s as [|c s IH]; [reflexivity|]. cbn [take_while drop_while]. destruct (f c); [exact IH|reflexivity]. Qed.
Lemma read_mono : forall n m, n <= m -> below (read n) (read m).
Proof.
  induction n as [|n IH]; intros m L; [intros ls bs E; discriminate|].
  destruct m as [|m]; [lia|]. cbn [read]. apply step_mono, IH. lia.
Qed.
Theorem reads_unique : forall ls bs bs', reads ls bs -> reads ls bs' -> bs = bs'.
Proof.
  intros ls bs bs' [n E] [m E']. pose proof (read_mono n (Nat.max n m) ltac:(lia) _ _ E) as A.
  pose proof (read_mono m (Nat.max n m) ltac:(lia) _ _ E') as A'. congruence.
Qed.
(** One step. *)
Lemma reads_step : forall ls bs, (exists n, read_step (read n) ls = Some bs) <-> reads ls bs.
Proof.
  intros ls bs. split.
  - intros [n E]. exists (S n). exact E.
  - intros [[|n] E]; [discriminate|]. exists n. exact E.
Qed.
Lemma reads_nil : reads [] [].
Proof. exists 1. reflexivity. Qed.
Lemma reads_blank : forall l r bs, is_blank l = true -> reads r bs -> reads (l :: r) bs.
Proof. intros l r bs B [n E]. apply reads_step. exists n. cbn [read_step]. rewrite B. exact E. Qed.
Lemma reads_blank_inv : forall l r bs, is_blank l = true -> reads (l :: r) bs -> reads r bs.
Proof. intros l r bs B R. apply reads_step in R. destruct R as [n E]. cbn [read_step] in E. rewrite B in E. exists n. exact E. Qed.

(** ** Details of descriptions *)
Lemma details_head_line : forall l s, margin l = Some s -> details_line s = false -> details_head l = None.
Proof.
  intros l s M D. unfold details_head. rewrite M. destruct s as [|c r]; [reflexivity|]. cbn [details_line] in D.
  destruct (ceq c c_colon); [|reflexivity]. cbn [orb andb] in *. destruct r as [|d r]; [discriminate|]. cbn [blank_or_end] in D.
  cbn [run_len]. destruct (ceq d c_sp) eqn:K; [|reflexivity]. apply ceq_true in K. subst d. discriminate.
Qed.
(** Lines that are read do not begin with details. *)
Lemma details_head_unread : forall f l r x, is_blank l = false -> details_head l = Some x -> read_step f (l :: r) = None.
Proof.
  intros f l r x Bl H. cbn [read_step]. rewrite Bl. unfold details_head in H. destruct (margin l) as [s|] eqn:M; [|discriminate].
  destruct s as [|c s]; [discriminate|]. destruct (ceq c c_colon) eqn:C; [|discriminate]. apply ceq_true in C. subst c. cbn [andb] in H.
  destruct (1 <=? run_len c_sp s) eqn:N; [|discriminate]. destruct s as [|d s]; [discriminate|]. cbn [run_len] in N.
  destruct (ceq d c_sp) eqn:K; [|discriminate]. apply ceq_true in K. subst d.
  assert (F : is_some (opening_fence l) = false).
  { unfold margin in M. unfold opening_fence. destruct (fence_indent l) as [[i y]|] eqn:Fi; [|discriminate]. destruct y as [|c y]; [discriminate|].
    destruct (ceq c c_tab) eqn:Ct; [discriminate|]. injection M as -> ->. reflexivity. }
  rewrite F. reflexivity.
Qed.
Lemma reads_no_details : forall rest bs, reads rest bs -> details_next rest = None.
Proof.
  induction rest as [|l r IH]; intros bs R; [reflexivity|]. cbn [details_next]. destruct (is_blank l) eqn:Bl.
  - apply (IH bs). eapply reads_blank_inv; eassumption.
  - destruct (details_head l) as [x|] eqn:D; [|reflexivity]. exfalso. apply reads_step in R. destruct R as [n R].
    rewrite (details_head_unread _ _ _ _ Bl D) in R. discriminate.
Qed.

(** ** The first word of a line *)
Definition dark_char (c : char) : bool := negb (is_ws c).
Definition fw (l : str) : str := take_while dark_char l.
Definition begins_dark (l : str) : Prop := exists c r, l = c :: r /\ is_ws c = false.

Lemma fw_dark : forall l, Forall (fun c => dark_char c = true) (fw l).
Proof. intro l. apply take_while_forall. Qed.
Lemma fw_split : forall l, exists t, l = fw l ++ t /\ (t = [] \/ exists c t', t = c :: t' /\ is_ws c = true).
Proof.
  intro l. exists (drop_while dark_char l). unfold fw. rewrite drop_while_app_take. split; [reflexivity|].
  destruct (drop_while dark_char l) as [|c t'] eqn:E; [auto|]. right. exists c, t'. split; [reflexivity|].
  apply drop_while_head in E. unfold dark_char in E. apply negb_false_iff. exact E.
Qed.
Lemma fw_app : forall a b, Forall (fun c => dark_char c = true) a -> fw (a ++ b) = a ++ fw b.
Proof. intros a b H. induction H as [|c a Hc H IH]; [reflexivity|]. unfold fw in *. cbn [app take_while]. rewrite Hc, IH. reflexivity. Qed.
Lemma fw_end : forall t, (t = [] \/ exists c t', t = c :: t' /\ is_ws c = true) -> fw t = [].
Proof. intros t [->|(c & t' & -> & H)]; [reflexivity|]. unfold fw. cbn [take_while]. unfold dark_char. rewrite H. reflexivity. Qed.
Lemma fw_word : forall a t, Forall (fun c => dark_char c = true) a -> (t = [] \/ exists c t', t = c :: t' /\ is_ws c = true) -> fw (a ++ t) = a.
Proof. intros a t Ha Ht. rewrite fw_app, (fw_end t Ht), app_nil_r by exact Ha. reflexivity. Qed.
Lemma blank_end : forall t, blank_or_end t = true -> t = [] \/ exists c t', t = c :: t' /\ is_ws c = true.
Proof. intros [|c t] H; [auto|]. right. exists c, t. split; [reflexivity|]. apply is_blank_char_ws. exact H. Qed.
Lemma split_ws_aux_word : forall a cur t, Forall (fun c => dark_char c = true) a -> a <> [] \/ cur <> [] ->
  (t = [] \/ exists c t', t = c :: t' /\ is_ws c = true) ->
  split_ws_aux cur (a ++ t) = (rev cur ++ a) :: split_whitespace t.
Proof.
  intros a cur t H. revert cur. induction H as [|c a Hc H IH]; intros cur N T.
  - destruct N as [N|N]; [congruence|]. cbn [app]. rewrite app_nil_r.
    destruct T as [->|(c & t' & -> & W)]; cbn [split_ws_aux]; [|unfold split_whitespace; cbn [split_ws_aux]; rewrite W]; destruct cur; try congruence; reflexivity.
  - cbn [app split_ws_aux]. unfold dark_char in Hc. apply negb_true_iff in Hc. rewrite Hc. rewrite IH; [|right; discriminate|exact T].
    cbn [rev]. rewrite <- app_assoc. reflexivity.
Qed.
Lemma first_word : forall l, begins_dark l -> exists t, l = fw l ++ t /\ fw l <> []
  /\ (t = [] \/ exists c t', t = c :: t' /\ is_ws c = true) /\ split_whitespace l = fw l :: split_whitespace t.
Proof.
  intros l (c & r & -> & D). destruct (fw_split (c :: r)) as (t & E & T).
  assert (N : fw (c :: r) <> []) by (unfold fw; cbn [take_while]; unfold dark_char; rewrite D; discriminate).
  exists t. split; [exact E|]. split; [exact N|]. split; [exact T|].
  rewrite E at 1. unfold split_whitespace at 1. rewrite split_ws_aux_word; [reflexivity|apply fw_dark|auto|exact T].
Qed.

(** ** A line whose first word opens nothing opens nothing *)
Lemma dark_not_blank : forall c, is_ws c = false -> is_blank_char c = false.
Proof. intros c H. destruct (is_blank_char c) eqn:E; [apply is_blank_char_ws in E; congruence|reflexivity]. Qed.
Lemma forallb_fw : forall (p : char -> bool) l, forallb p l = true -> forallb p (fw l) = true.
Proof.
  intros p l H. destruct (fw_split l) as (t & E & _). rewrite E, forallb_app in H. apply andb_true_iff in H. tauto.
Qed.
Lemma forallb_fw_dark : forall (p q : char -> bool) l, (forall c, is_ws c = false -> p c = true -> q c = true) ->
  forallb p l = true -> forallb q (fw l) = true.
Proof.
  intros p q l H F. apply forallb_fw in F. rewrite forallb_forall in *. intros c I. apply H; [|auto].
  pose proof (fw_dark l) as D. rewrite Forall_forall in D. specialize (D c I). unfold dark_char in D. apply negb_true_iff. exact D.
Qed.
Lemma starts_with_app : forall p s, starts_with p (p ++ s) = true.
Proof. intros p s. apply starts_with_true. eauto. Qed.
Lemma starts_fw : forall p l, Forall (fun c => dark_char c = true) p -> starts_with p l = starts_with p (fw l).
Proof.
  intros p l D. destruct (starts_with p l) eqn:A.
  - apply starts_with_true in A. destruct A as [r ->]. rewrite fw_app by exact D. symmetry. apply starts_with_app.
  - destruct (starts_with p (fw l)) eqn:B; [|reflexivity]. apply starts_with_true in B. destruct B as [r E].
    destruct (fw_split l) as (t & F & _). rewrite F, E, <- app_assoc, starts_with_app in A. discriminate.
Qed.
Ltac dark_lit := repeat (constructor; [reflexivity|]); constructor.

Lemma run_starts : forall c n l, n <= run_len c l -> starts_with (repc c n) l = true.
Proof.
  intros c n l H. apply starts_with_true. rewrite (run_len_split c l). replace (run_len c l) with (n + (run_len c l - n)) by lia.
  rewrite repc_app, <- app_assoc. eauto.
Qed.
Lemma count_hashes_run : forall l n t, count_hashes l = (n, t) -> l = repc c_hash n ++ t.
Proof.
  induction l as [|c r IH]; intros n t E; cbn [count_hashes] in E; [injection E as <- <-; reflexivity|].
  destruct (N.eqb c 35) eqn:H; [|injection E as <- <-; reflexivity]. destruct (count_hashes r) as [k u] eqn:Q. injection E as <- <-.
  apply N.eqb_eq in H. subst c. cbn [repc repeat app]. f_equal. apply IH. reflexivity.
Qed.
Lemma read_atx_shape : forall s n t, read_atx s = Some (n, t) -> exists u, s = repc c_hash n ++ u /\ 1 <= n
  /\ (u = [] \/ exists c t', u = c :: t' /\ is_ws c = true).
Proof.
  intros s n t H. unfold read_atx in H. destruct (count_hashes s) as [k u] eqn:E. apply count_hashes_run in E.
  destruct ((1 <=? k) && (k <=? 6)) eqn:L; [|discriminate]. exists u. destruct u as [|c r].
  - injection H as <- <-. repeat split; auto. lia.
  - destruct (N.eqb c 32 || N.eqb c 9) eqn:W; [|discriminate]. injection H as <- <-. repeat split; auto; [lia|].
    right. exists c, r. split; [reflexivity|]. apply orb_true_iff in W. rewrite !N.eqb_eq in W. destruct W as [-> | ->]; reflexivity.
Qed.
Lemma digit_dark : forall c, is_ascii_digit c = true -> dark_char c = true.
Proof. intros c H. unfold is_ascii_digit in H. unfold dark_char, is_ws. lia. Qed.
Lemma bullet_dark : forall c, is_bullet c = true -> dark_char c = true.
Proof. intros c H. unfold is_bullet in H. rewrite !orb_true_iff, !ceq_true in H. destruct H as [[->| ->]| ->]; reflexivity. Qed.
Lemma marker_shape : forall s m r, marker_of s = Some (m, r) -> blank_or_end r = true /\
  ((exists c, m = BulletOf c /\ is_bullet c = true /\ s = c :: r)
   \/ (exists ds d, m = NumberOf ds d /\ s = ds ++ d :: r /\ Forall (fun c => is_ascii_digit c = true) ds
        /\ 1 <= List.length ds <= 9 /\ (d = c_dot \/ d = c_rpar))).
Proof.
  intros [|c r0] m r H; [discriminate|]. cbn [marker_of] in H. destruct (is_bullet c) eqn:B.
  { destruct (blank_or_end r0) eqn:E; [|discriminate]. injection H as <- <-. split; [exact E|]. left. eauto. }
  set (ds := take_while is_ascii_digit (c :: r0)) in *. destruct (skipn (List.length ds) (c :: r0)) as [|d r'] eqn:E; [discriminate|].
  destruct ((1 <=? List.length ds) && (List.length ds <=? 9) && (ceq d c_dot || ceq d c_rpar) && blank_or_end r') eqn:Q; [|discriminate].
  injection H as <- <-. rewrite !andb_true_iff, orb_true_iff, !ceq_true in Q. destruct Q as [[[Q1 Q2] Q3] Q4]. split; [exact Q4|]. right.
  exists ds, d. split; [reflexivity|]. split.
  { rewrite <- (drop_while_app_take is_ascii_digit (c :: r0)) at 1. fold ds. f_equal.
    rewrite <- (drop_while_app_take is_ascii_digit (c :: r0)) in E. fold ds in E. rewrite skipn_app, skipn_all, Nat.sub_diag in E. exact E. }
  split; [apply take_while_forall|]. split; [lia|exact Q3].
Qed.
Lemma take_digits : forall ds d r, Forall (fun c => is_ascii_digit c = true) ds -> is_ascii_digit d = false ->
  take_while is_ascii_digit (ds ++ d :: r) = ds.
Proof. intros ds d r H Hd. induction H as [|c ds Hc H IH]; cbn [app take_while]; [rewrite Hd|rewrite Hc, IH]; reflexivity. Qed.
Lemma marker_number : forall ds d r, Forall (fun c => is_ascii_digit c = true) ds -> 1 <= List.length ds <= 9 -> (d = c_dot \/ d = c_rpar) ->
  blank_or_end r = true -> marker_of (ds ++ d :: r) = Some (NumberOf ds d, r).
Proof.
  intros ds d r H L D B. unfold marker_of. destruct (ds ++ d :: r) as [|c r0] eqn:E; [destruct ds; discriminate|].
  assert (K : is_bullet c = false).
  { destruct ds as [|x ds]; [cbn in L; lia|]. cbn [app] in E. injection E as <- _. inversion H; subst.
    unfold is_ascii_digit in H2. unfold is_bullet. destruct (ceq_spec x c_dash), (ceq_spec x c_plus), (ceq_spec x c_star); subst; try discriminate H2. reflexivity. }
  rewrite K. rewrite <- E, take_digits; [|exact H|destruct D as [->| ->]; reflexivity].
  rewrite skipn_app, skipn_all, Nat.sub_diag. cbn [app skipn].
  replace ((1 <=? List.length ds) && (List.length ds <=? 9)) with true by lia. rewrite B.
  destruct D as [->| ->]; reflexivity.
Qed.
Lemma number_dark : forall ds d, Forall (fun c => is_ascii_digit c = true) ds -> (d = c_dot \/ d = c_rpar) -> Forall (fun c => dark_char c = true) (ds ++ [d]).
Proof.
  intros ds d H D. apply Forall_app. split; [eapply Forall_impl; [|exact H]; apply digit_dark|]. constructor; [|constructor].
  destruct D as [->| ->]; reflexivity.
Qed.
(** What a marker says about the first word. *)
Lemma marker_fw : forall s m r, marker_of s = Some (m, r) ->
  match m with
  | BulletOf c => is_bullet c = true /\ fw s = [c]
  | NumberOf ds d => marker_of (fw s) = Some (m, [])
  end.
Proof.
  intros s m r H. apply marker_shape in H. destruct H as [B [(c & -> & K & ->)|(ds & d & -> & -> & F & L & D)]].
  - split; [exact K|]. change (c :: r) with ([c] ++ r). apply fw_word; [constructor; [apply bullet_dark; exact K|constructor]|apply blank_end; exact B].
  - replace (ds ++ d :: r) with ((ds ++ [d]) ++ r) by (rewrite <- app_assoc; reflexivity).
    rewrite fw_word; [|apply number_dark; assumption|apply blank_end; exact B]. apply marker_number; auto.
Qed.

Lemma skip_take : forall (p : char -> bool) s, skipn (List.length (take_while p s)) s = drop_while p s.
Proof. intros p s. induction s as [|c s IH]; [reflexivity|]. cbn [take_while drop_while]. destruct (p c); [exact IH|reflexivity]. Qed.
Lemma take_app_stop : forall (p : char -> bool) a b, Forall (fun c => p c = true) a -> (match b with [] => True | c :: _ => p c = false end) ->
  take_while p (a ++ b) = a /\ drop_while p (a ++ b) = b.
Proof.
  intros p a b H Hb. induction H as [|c a Hc H [IH1 IH2]]; cbn [app take_while drop_while].
  - destruct b as [|c b]; [auto|]. cbn [take_while drop_while]. rewrite Hb. auto.
  - rewrite Hc, IH1, IH2. auto.
Qed.
Lemma tag_dark : forall c, tag_char c = true -> dark_char c = true.
Proof.
  intros c H. unfold tag_char in H. apply orb_true_iff in H. rewrite ceq_true in H.
  destruct H as [H| ->]; [|reflexivity]. unfold is_ascii_alnum, is_ascii_digit, is_ascii_upper, is_ascii_lower in H. unfold dark_char, is_ws. lia.
Qed.
Lemma html_fw : forall s, html_line s = true -> html_line (fw s) = true.
Proof.
  intros [|a r] H; [discriminate|]. cbn [html_line] in H. apply andb_true_iff in H. destruct H as [A H]. apply ceq_true in A. subst a.
  change (fw (c_lt :: r)) with (c_lt :: fw r). cbn [html_line]. rewrite ceq_refl. cbn [andb].
  destruct r as [|b r']; [discriminate|]. destruct (ceq b c_bang || ceq b 63%N) eqn:B.
  { assert (D : dark_char b = true) by (apply orb_true_iff in B; rewrite !ceq_true in B; destruct B as [->| ->]; reflexivity).
    unfold fw. cbn [take_while]. rewrite D, B. reflexivity. }
  cbv zeta in H. set (name := if ceq b c_slash then r' else b :: r') in *.
  apply andb_true_iff in H. destruct H as [L H]. rewrite skip_take in H.
  assert (E : name = take_while tag_char name ++ drop_while tag_char name) by (symmetry; apply drop_while_app_take).
  assert (N : fw name = take_while tag_char name ++ fw (drop_while tag_char name)).
  { rewrite E at 1. apply fw_app. eapply Forall_impl; [|apply take_while_forall]. cbn. apply tag_dark. }
  assert (T : take_while tag_char (fw name) = take_while tag_char name /\ drop_while tag_char (fw name) = fw (drop_while tag_char name)).
  { rewrite N. apply take_app_stop; [apply take_while_forall|]. destruct (drop_while tag_char name) as [|e t] eqn:Q; [exact Logic.I|].
    unfold fw. cbn [take_while]. destruct (dark_char e); [|exact Logic.I]. apply drop_while_head in Q. exact Q. }
  destruct T as [T1 T2].
  assert (G : match drop_while tag_char (fw name) with [] => true | e :: _ => is_blank_char e || ceq e c_gt || ceq e c_slash end = true).
  { rewrite T2. destruct (drop_while tag_char name) as [|e t]; [reflexivity|]. unfold fw. cbn [take_while].
    destruct (dark_char e); [exact H|reflexivity]. }
  destruct (ceq b c_slash) eqn:S.
  - apply ceq_true in S. subst b. change (fw (c_slash :: r')) with (c_slash :: fw r'). cbv zeta. cbn [orb].
    change (ceq c_slash c_bang || ceq c_slash 63%N) with false. cbn iota. rewrite ceq_refl. fold name.
    rewrite skip_take, G, T1, L. reflexivity.
  - assert (D : dark_char b = true).
    { unfold name in L. cbn [take_while] in L. destruct (tag_char b) eqn:TB; [apply tag_dark; exact TB|discriminate]. }
    assert (FW : fw (b :: r') = b :: fw r') by (unfold fw; cbn [take_while]; rewrite D; reflexivity).
    unfold name in T1, G, L. rewrite FW in *. rewrite B. cbv zeta. rewrite S.
    rewrite skip_take, G, T1, L. reflexivity.
Qed.
Lemma details_fw : forall s, details_line s = true -> fw s = [c_colon] \/ fw s = [c_tilde].
Proof.
  intros [|c r] H; [discriminate|]. cbn [details_line] in H. apply andb_true_iff in H. destruct H as [H B].
  apply orb_true_iff in H. rewrite !ceq_true in H. destruct H as [->| ->]; [left|right];
    (match goal with |- fw (?x :: _) = _ => change (x :: r) with ([x] ++ r) end; apply fw_word; [dark_lit|apply blank_end; exact B]).
Qed.

Lemma opener_parts : forall w, opener w = false ->
  starts_with (lit "```") w = false /\ starts_with (lit "~~~") w = false /\ starts_with (lit ">") w = false
  /\ all_of c_star w = false /\ all_of c_us w = false /\ all_of c_hash w = false /\ all_of c_eq w = false
  /\ forallb (fun c => ceq c c_dash || ceq c c_colon || ceq c c_pipe) w = false
  /\ w <> lit "+" /\ w <> lit "~"
  /\ (forall ds d r, marker_of w = Some (NumberOf ds d, r) -> is_one ds = false)
  /\ html_line w = false.
Proof.
  intros w H. unfold opener in H. rewrite !orb_false_iff, !seqb_false in H. decompose [and] H. repeat split; auto.
  intros ds d r E. rewrite E in *. assumption.
Qed.

Lemma plain_fence : forall l, begins_dark l -> opener (fw l) = false -> opening_fence l = None.
Proof.
  intros l (c & r & -> & D) H. apply opener_parts in H. destruct H as (H1 & H2 & _).
  unfold opening_fence, fence_indent. assert (S : ceq c c_sp = false) by (apply ceq_false; intros ->; discriminate).
  assert (Z : run_len c_sp (c :: r) = 0) by (cbn [run_len]; rewrite S; reflexivity). rewrite Z. change (0 <=? 3) with true. cbn [skipn].
  destruct (ceq c c_bt || ceq c c_tilde) eqn:F; [|reflexivity]. cbv zeta.
  destruct (3 <=? run_len c (c :: r)) eqn:L; [|reflexivity]. apply Nat.leb_le in L. exfalso.
  apply run_starts in L. apply orb_true_iff in F. rewrite !ceq_true in F.
  assert (P : Forall (fun c => dark_char c = true) (repc c 3)) by (apply repc_forall; unfold dark_char; rewrite D; reflexivity).
  rewrite (starts_fw _ _ P) in L. destruct F as [->| ->]; [change (repc c_bt 3) with (lit "```") in L|change (repc c_tilde 3) with (lit "~~~") in L]; congruence.
Qed.
Lemma plain_rule : forall l, opener (fw l) = false -> is_rule l = false.
Proof.
  intros l H. apply opener_parts in H. destruct H as (_ & _ & _ & H1 & H2 & _ & _ & H3 & _).
  unfold is_rule. rewrite !orb_false_iff. unfold rule_of. repeat split; apply andb_false_iff; left.
  - destruct (forallb _ l) eqn:E; [|reflexivity]. apply (forallb_fw_dark _ (ceq c_star)) in E; [unfold all_of in *; congruence|].
    intros c W Q. apply orb_true_iff in Q. destruct Q as [Q|Q]; [|rewrite dark_not_blank in Q; [discriminate|exact W]]. apply ceq_true in Q. subst. apply ceq_refl.
  - destruct (forallb _ l) eqn:E; [|reflexivity]. apply (forallb_fw_dark _ (fun c => ceq c c_dash || ceq c c_colon || ceq c c_pipe)) in E; [congruence|].
    intros c W Q. apply orb_true_iff in Q. destruct Q as [Q|Q]; [|rewrite dark_not_blank in Q; [discriminate|exact W]]. rewrite Q. reflexivity.
  - destruct (forallb _ l) eqn:E; [|reflexivity]. apply (forallb_fw_dark _ (ceq c_us)) in E; [unfold all_of in *; congruence|].
    intros c W Q. apply orb_true_iff in Q. destruct Q as [Q|Q]; [|rewrite dark_not_blank in Q; [discriminate|exact W]]. apply ceq_true in Q. subst. apply ceq_refl.
Qed.
Lemma plain_atx : forall l, opener (fw l) = false -> read_atx l = None.
Proof.
  intros l H. destruct (read_atx l) as [[n t]|] eqn:E; [|reflexivity]. exfalso. apply read_atx_shape in E. destruct E as (u & -> & L & T).
  rewrite fw_word in H; [|apply repc_forall; reflexivity|exact T].
  apply opener_parts in H. destruct H as (_ & _ & _ & _ & _ & H & _). unfold all_of in H.
  assert (K : forallb (ceq c_hash) (repc c_hash n) = true) by (apply forallb_Forall, repc_forall, ceq_refl). congruence.
Qed.
Lemma plain_quote : forall l, opener (fw l) = false -> starts_quote l = false.
Proof.
  intros l H. apply opener_parts in H. destruct H as (_ & _ & H & _). rewrite <- starts_fw in H by dark_lit.
  destruct l as [|c r]; [reflexivity|]. cbn [starts_quote]. destruct (ceq_spec c c_gt) as [->|]; [|reflexivity].
  change (c_gt :: r) with (lit ">" ++ r) in H. rewrite starts_with_app in H. discriminate.
Qed.
Lemma plain_strange : forall l, opener (fw l) = false -> html_line l = false /\ details_line l = false.
Proof.
  intros l H. apply opener_parts in H. destruct H as (_ & _ & _ & _ & _ & _ & _ & H1 & _ & H2 & _ & H3).
  split.
  - destruct (html_line l) eqn:E; [|reflexivity]. apply html_fw in E. congruence.
  - destruct (details_line l) eqn:E; [|reflexivity]. apply details_fw in E. destruct E as [E|E]; rewrite E in *; [discriminate|]. exfalso. apply H2. reflexivity.
Qed.
Lemma plain_row : forall l, opener (fw l) = false -> delimiter_row l = false.
Proof.
  intros l H. apply opener_parts in H. destruct H as (_ & _ & _ & _ & _ & _ & _ & H1 & _).
  unfold delimiter_row. apply andb_false_iff. left. destruct (forallb _ l) eqn:E; [|reflexivity].
  apply (forallb_fw_dark _ (fun c => ceq c c_dash || ceq c c_colon || ceq c c_pipe)) in E; [congruence|].
  intros c W Q. apply orb_true_iff in Q. destruct Q as [Q|Q]; [exact Q|rewrite dark_not_blank in Q; [discriminate|exact W]].
Qed.
Lemma plain_underline : forall l, opener (fw l) = false -> underline l = None.
Proof.
  intros l H. apply opener_parts in H. destruct H as (_ & _ & _ & _ & _ & _ & H1 & H2 & _).
  unfold underline. destruct (drop_while_end_app is_blank_char l) as (t & E & T). remember (drop_while_end is_blank_char l) as b eqn:Hb. clear Hb.
  assert (TT : t = [] \/ exists c t', t = c :: t' /\ is_ws c = true).
  { destruct t as [|c t']; [auto|]. right. exists c, t'. split; [reflexivity|]. inversion T; subst. apply is_blank_char_ws. assumption. }
  destruct b as [|c r]; [reflexivity|]. cbn [read_underline].
  assert (G : forall x, dark_char x = true -> c = x -> forallb (N.eqb x) r = true -> fw l = c :: r).
  { intros x Dx -> F. rewrite E. apply fw_word; [|exact TT]. constructor; [exact Dx|]. apply forallb_Forall in F.
    eapply Forall_impl; [|exact F]. intros y Y. apply N.eqb_eq in Y. subst y. exact Dx. }
  destruct (N.eqb c 61 && forallb (N.eqb 61) r) eqn:Q1.
  { apply andb_true_iff in Q1. destruct Q1 as [Q Q']. apply N.eqb_eq in Q. rewrite (G 61%N eq_refl Q Q') in H1.
    subst c. change (forallb (N.eqb 61) r = false) in H1. congruence. }
  destruct (N.eqb c 45 && forallb (N.eqb 45) r) eqn:Q2; [|reflexivity].
  apply andb_true_iff in Q2. destruct Q2 as [Q Q']. apply N.eqb_eq in Q. rewrite (G 45%N eq_refl Q Q') in H2.
  exfalso. rewrite <- not_true_iff_false in H2. apply H2. apply forallb_Forall. apply forallb_Forall in Q'. subst c. constructor; [reflexivity|].
  eapply Forall_impl; [|exact Q']. intros y Y. apply N.eqb_eq in Y. subst y. reflexivity.
Qed.
Lemma plain_marker : forall l m r, opener (fw l) = false -> marker_of l = Some (m, r) ->
  exists ds d, m = NumberOf ds d /\ is_one ds = false.
Proof.
  intros l m r H M. pose proof (marker_fw l m r M) as F. apply opener_parts in H.
  destruct H as (_ & _ & _ & H1 & _ & _ & _ & H2 & H3 & _ & H4 & _). destruct m as [c|ds d].
  - destruct F as [B F]. rewrite F in *. unfold is_bullet in B. rewrite !orb_true_iff, !ceq_true in B.
    destruct B as [[->| ->]| ->]; [discriminate|exfalso; apply H3; reflexivity|discriminate].
  - exists ds, d. split; [reflexivity|]. eapply H4. exact F.
Qed.
Lemma plain_interrupts : forall l, begins_dark l -> opener (fw l) = false -> interrupts l = false.
Proof.
  intros l D H. unfold interrupts. rewrite (plain_fence l D H), (plain_rule l H), (plain_atx l H), (plain_quote l H). cbn [is_some orb].
  destruct (marker_of l) as [[m r]|] eqn:M; [|reflexivity]. destruct (plain_marker l m r H M) as (ds & d & -> & ->). reflexivity.
Qed.
Lemma dark_margin : forall l, begins_dark l -> margin l = Some l /\ is_blank l = false /\ run_len c_sp l = 0 /\ tabbed l = false.
Proof.
  intros l (c & r & -> & D). assert (S : ceq c c_sp = false) by (apply ceq_false; intros ->; discriminate).
  assert (T : ceq c c_tab = false) by (apply ceq_false; intros ->; discriminate).
  unfold margin, fence_indent, is_blank, tabbed. cbn [run_len forallb]. rewrite S. cbn [Nat.leb skipn]. rewrite T, (dark_not_blank c D). auto.
Qed.
