(** Proofs about escape.rs. *)
From Coq Require Import Bool Arith NArith Lia ZifyBool ZifyNat ZifyN List.
From Verif Require Import Base BaseFacts EscapeModel SpecInline.
Import ListNotations.

(** ** escape_text *)
Definition scan_unit (e : bool) (c : char) : str := if e then [c_bs; c] else [c].

Lemma cm_scan_unit : forall e c r,
  (e = true -> is_ascii_punct c = true) -> (e = false -> c <> c_bs) ->
  cm_scan (scan_unit e c ++ r) = (e, c) :: cm_scan r.
Proof.
  intros [] c r H1 H2; cbn [scan_unit app cm_scan].
  - rewrite ceq_refl. rewrite H1; auto.
  - destruct (ceq_spec c c_bs); [exfalso; apply H2; auto|]. reflexivity.
Qed.

Definition esc_flag (prev : option char) (c : char) (rest : str) : bool :=
  ceq c c_star || ceq c c_us || ceq c c_bs || ceq c c_bt
  || (ceq c c_lbr && negb (is_nil rest || match rest with n :: _ => ceq n c_lbr | [] => false end))
  || (ceq c c_rbr && match prev with Some p => negb (ceq p c_rbr) | None => false end
      && match rest with n :: _ => ceq n c_lpar || ceq n c_lbr | [] => false end).

Lemma escape_text_unfold : forall prev c rest,
  escape_text_from prev (c :: rest) =
  scan_unit (esc_flag prev c rest) c ++ escape_text_from (Some c) rest.
Proof.
  intros. cbn [escape_text_from]. unfold esc_flag. f_equal.
  destruct (ceq_spec c c_star); [subst; reflexivity|].
  destruct (ceq_spec c c_us); [subst; reflexivity|].
  destruct (ceq_spec c c_lbr).
  { subst. destruct rest as [|n9 r]; [reflexivity|]. cbn [is_nil orb]. destruct (ceq n9 c_lbr); reflexivity. }
  destruct (ceq_spec c c_rbr).
  { subst. destruct rest as [|n' r].
    - cbn. destruct prev as [p|]; [destruct (ceq p c_rbr)|]; reflexivity.
    - destruct prev as [p|]; cbn [is_nil]; [destruct (ceq p c_rbr); [reflexivity|]|].
      + destruct (ceq n' c_lpar || ceq n' c_lbr); reflexivity.
      + reflexivity. }
  destruct (ceq_spec c c_bs); [subst; reflexivity|].
  destruct (ceq_spec c c_bt); [subst; reflexivity|].
  reflexivity.
Qed.

Lemma esc_flag_punct : forall prev c rest, esc_flag prev c rest = true -> is_ascii_punct c = true.
Proof.
  intros prev c rest H. unfold esc_flag in H.
  destruct (ceq_spec c c_star); [subst; reflexivity|].
  destruct (ceq_spec c c_us); [subst; reflexivity|].
  destruct (ceq_spec c c_bs); [subst; reflexivity|].
  destruct (ceq_spec c c_bt); [subst; reflexivity|].
  destruct (ceq_spec c c_lbr); [subst; reflexivity|].
  destruct (ceq_spec c c_rbr); [subst; reflexivity|].
  cbn in H. discriminate.
Qed.
Lemma esc_flag_false : forall prev c rest, esc_flag prev c rest = false ->
  c <> c_star /\ c <> c_us /\ c <> c_bs /\ c <> c_bt.
Proof.
  intros prev c rest H. unfold esc_flag in H.
  destruct (ceq_spec c c_star); [discriminate|].
  destruct (ceq_spec c c_us); [discriminate|].
  destruct (ceq_spec c c_bs); [discriminate|].
  destruct (ceq_spec c c_bt); [discriminate|]. auto.
Qed.

Lemma escape_text_scan : forall text prev,
  map snd (cm_scan (escape_text_from prev text)) = text
  /\ Forall (fun x => fst x = false ->
       snd x <> c_star /\ snd x <> c_us /\ snd x <> c_bs /\ snd x <> c_bt)
       (cm_scan (escape_text_from prev text)).
Proof.
  induction text as [|c rest IH]; intros prev.
  - split; constructor.
  - rewrite escape_text_unfold.
    rewrite cm_scan_unit.
    + destruct (IH (Some c)) as [IH1 IH2]. cbn [map snd]. split; [congruence|].
      constructor; auto. cbn [fst snd]. apply esc_flag_false.
    + apply esc_flag_punct.
    + intro H. apply (esc_flag_false _ _ _ H).
Qed.

Lemma escape_text_roundtrip : forall t, cm_unescape (escape_text t) = t.
Proof. intro t. apply (escape_text_scan t None). Qed.
Lemma escape_text_inert : forall t c, In c [c_star; c_us; c_bs; c_bt] -> ~ active c (escape_text t).
Proof.
  intros t c Hc Ha. destruct (escape_text_scan t None) as [_ H].
  rewrite Forall_forall in H. specialize (H _ Ha). cbn [fst snd] in H.
  destruct (H eq_refl) as (A & B & C & D).
  cbn [In] in Hc. intuition congruence.
Qed.

(** ** format_code_span *)
Lemma count_ticks_repc : forall n s, (forall c r, s = c :: r -> c <> c_bt) -> count_ticks (repc c_bt n ++ s) = n.
Proof.
  intros n s H. unfold count_ticks. induction n; cbn [repc repeat app take_while].
  - destruct s as [|c r]; auto. cbn [take_while]. destruct (ceq_spec c_bt c); auto.
    exfalso. apply (H c r); auto.
  - rewrite ceq_refl. cbn [length]. f_equal. exact IHn.
Qed.
Lemma skipn_repc : forall c n s, skipn n (repc c n ++ s) = s.
Proof. intros. rewrite skipn_app, repc_length, Nat.sub_diag. cbn. rewrite skipn_all2; auto. rewrite repc_length; auto. Qed.
Lemma firstn_repc : forall c n s, firstn n (repc c n ++ s) = repc c n.
Proof. intros. rewrite firstn_app, repc_length, Nat.sub_diag. cbn. rewrite app_nil_r. apply firstn_all2. rewrite repc_length; auto. Qed.

(** Every run of backticks in [s], where [cur] backticks precede it, is at most [m]. *)
Lemma backtick_loop_ge : forall s mx cur, mx <= backtick_loop mx cur s.
Proof.
  induction s as [|c s IH]; intros mx cur; cbn [backtick_loop]; auto.
  destruct (ceq c c_bt); auto. specialize (IH (Nat.max mx (S cur)) (S cur)). lia.
Qed.
Lemma backtick_loop_run : forall k s mx cur, 0 < k -> cur + k <= backtick_loop mx cur (repc c_bt k ++ s).
Proof.
  induction k; intros s mx cur H; [lia|]. cbn [repc repeat app backtick_loop]. rewrite ceq_refl.
  destruct k as [|k].
  - cbn [repc repeat app]. pose proof (backtick_loop_ge s (Nat.max mx (S cur)) (S cur)). lia.
  - specialize (IHk s (Nat.max mx (S cur)) (S cur)). unfold repc in IHk. lia.
Qed.
Lemma backtick_loop_skip : forall k s mx cur, exists mx' cur',
  backtick_loop mx cur (repc c_bt k ++ s) = backtick_loop mx' cur' s.
Proof.
  induction k; intros s mx cur; [exists mx, cur; reflexivity|].
  cbn [repc repeat app backtick_loop]. rewrite ceq_refl. apply IHk.
Qed.
Lemma take_ticks : forall s, s = repc c_bt (count_ticks s) ++ skipn (count_ticks s) s
   /\ (forall c r, skipn (count_ticks s) s = c :: r -> c <> c_bt).
Proof.
  unfold count_ticks. induction s as [|c s IH]; cbn [take_while].
  - split; [reflexivity|]. cbn. discriminate.
  - destruct (ceq_spec c_bt c).
    + subst. cbn [length skipn repc repeat app]. destruct IH as [I1 I2]. split; [f_equal; exact I1|exact I2].
    + cbn. split; [reflexivity|]. intros. congruence.
Qed.

(** The closing run is found exactly at the end when [n] exceeds every run. *)
Lemma closing_run_found : forall m s, length s <= m -> forall fuel n rest mx cur,
  length s < fuel -> 0 < n -> backtick_loop mx cur s < n ->
  (forall c r, rest = c :: r -> c <> c_bt) ->
  (s = [] \/ exists a c, s = a ++ [c] /\ c <> c_bt) ->
  closing_run fuel n (s ++ repc c_bt n ++ rest) = Some (s, rest).
Proof.
  induction m as [m IHm] using lt_wf_ind. intros s Hm fuel n rest mx cur Hf Hn Hb Hrest Hlast.
  destruct fuel as [|k]; [lia|].
  destruct s as [|c s].
  - cbn [app]. cbn [closing_run]. destruct n as [|n]; [lia|].
    change (repc c_bt (S n)) with (c_bt :: repc c_bt n). cbn [app]. rewrite ceq_refl.
    change (c_bt :: repc c_bt n ++ rest) with (repc c_bt (S n) ++ rest).
    rewrite count_ticks_repc; auto. rewrite Nat.eqb_refl, skipn_repc. reflexivity.
  - cbn [app closing_run]. destruct (ceq_spec c c_bt).
    + subst c. destruct (take_ticks (c_bt :: s)) as [T1 T2].
      set (t := count_ticks (c_bt :: s)) in *.
      assert (Ht : 0 < t) by (unfold t, count_ticks; cbn [take_while]; rewrite ceq_refl; cbn [length]; lia).
      set (u := skipn t (c_bt :: s)) in *.
      change (c_bt :: s ++ repc c_bt n ++ rest) with ((c_bt :: s) ++ repc c_bt n ++ rest).
      rewrite T1. rewrite <- !app_assoc.
      assert (Hu : u <> []).
      { intro E. rewrite E, app_nil_r in T1. destruct Hlast as [|[a [d [Hs Hd]]]]; [discriminate|].
        rewrite T1 in Hs. destruct t as [|t']; [lia|]. rewrite repc_S_snoc in Hs.
        apply app_inj_tail in Hs. destruct Hs. congruence. }
      rewrite count_ticks_repc.
      2:{ intros c r H. destruct u as [|d u']; [congruence|]. cbn [app] in H. inversion H; subst. eapply T2; eauto. }
      assert (Hlt : t < n).
      { rewrite T1 in Hb. pose proof (backtick_loop_run t u mx cur Ht). lia. }
      replace (t =? n) with false by lia.
      rewrite skipn_repc, firstn_repc.
      destruct (backtick_loop_skip t u mx cur) as [mx' [cur' E]].
      assert (Hlen : length (c_bt :: s) = t + length u).
      { rewrite T1 at 1. rewrite app_length, repc_length. reflexivity. }
      cbn [length] in Hlen, Hm, Hf.
      rewrite (IHm (length u)) with (mx := mx') (cur := cur'); auto; try lia.
      * rewrite <- E, <- T1. exact Hb.
      * right. destruct Hlast as [|[a [d [Hs Hd]]]]; [discriminate|].
        destruct (exists_last Hu) as [u' [e He]]. exists u', e. split; auto.
        rewrite T1, He, app_assoc in Hs. apply app_inj_tail in Hs. destruct Hs; congruence.
    + cbn [backtick_loop] in Hb. destruct (ceq_spec c c_bt); [congruence|].
      cbn [length] in *.
      rewrite (IHm (length s)) with (mx := mx) (cur := 0); auto; try lia.
      destruct s as [|d s]; [left; reflexivity|right].
      destruct Hlast as [|[a [e [Hs He]]]]; [discriminate|].
      destruct a as [|a0 a]; [discriminate|]. cbn [app] in Hs. inversion Hs. exists a, e. auto.
Qed.

Lemma backtick_loop_snoc_sp : forall s mx cur, backtick_loop mx cur (s ++ [c_sp]) = backtick_loop mx cur s.
Proof.
  induction s as [|c s IH]; intros mx cur; cbn [app backtick_loop]; [reflexivity|].
  destruct (ceq c c_bt); apply IH.
Qed.

Lemma nl_to_sp_id : forall s, ~ In c_nl s -> nl_to_sp s = s.
Proof.
  induction s as [|c s IH]; intro H; auto. cbn [nl_to_sp map].
  destruct (ceq_spec c c_nl); [subst; exfalso; apply H; left; auto|]. f_equal. apply IH. intro; apply H; right; auto.
Qed.

Lemma last_app : forall (s : str) d, s <> [] -> exists a, s = a ++ [last s d].
Proof. intros s d H. exists (removelast s). apply app_removelast_last. exact H. Qed.

Definition sp_both_ends (s : str) : Prop :=
  (exists r, s = c_sp :: r) /\ (exists a, s = a ++ [c_sp]).

Lemma strip_one_id : forall s, ~ (sp_both_ends s /\ all_spaces s = false) -> strip_one s = s.
Proof.
  intros s H. unfold strip_one. destruct s as [|a r]; auto. destruct (rev r) as [|b r'] eqn:E; auto.
  destruct (ceq_spec a c_sp); [|reflexivity]. destruct (ceq_spec b c_sp); [|reflexivity].
  destruct (all_spaces (a :: r)) eqn:F; [reflexivity|].
  exfalso. apply H. split; auto. subst. split; [eauto|].
  exists (c_sp :: rev r'). rewrite <- (rev_involutive r), E. reflexivity.
Qed.

Lemma strip_one_pad : forall s, (exists c, In c s /\ c <> c_sp) -> strip_one (c_sp :: s ++ [c_sp]) = s.
Proof.
  intros s [c [Hc Hn]]. unfold strip_one. rewrite rev_app_distr. cbn [rev app].
  rewrite !ceq_refl. cbn [andb].
  replace (all_spaces (c_sp :: s ++ [c_sp])) with false.
  - cbn [negb]. apply rev_involutive.
  - symmetry. unfold all_spaces. apply not_true_is_false. intro F.
    rewrite forallb_forall in F. specialize (F c). destruct (ceq_spec c_sp c); [congruence|].
    assert (false = true) by (apply F; right; apply in_or_app; auto). congruence.
Qed.

Lemma code_span_raw : forall body content rest n,
  backtick_loop 0 0 content < n -> 0 < n ->
  (body = content /\ (forall r, content <> c_bt :: r) /\ content <> [] /\ (forall a, content <> a ++ [c_bt])
   \/ body = c_sp :: content ++ [c_sp]) ->
  (forall c r, rest = c :: r -> c <> c_bt) ->
  parse_code_span (repc c_bt n ++ body ++ repc c_bt n ++ rest)
    = Some (strip_one (nl_to_sp body), rest).
Proof.
  intros body content rest n Hb Hn Hbody Hrest. unfold parse_code_span.
  assert (Hhead : forall c r, body ++ repc c_bt n ++ rest = c :: r -> c <> c_bt).
  { intros c r E. destruct Hbody as [[-> [H1 [H2 H3]]] | ->].
    - destruct content; [congruence|]. cbn in E. inversion E; subst. intro; subst. eapply H1; eauto.
    - cbn in E. inversion E; subst. discriminate. }
  rewrite count_ticks_repc; auto.
  replace (n =? 0) with false by lia.
  rewrite skipn_repc.
  assert (Hb2 : backtick_loop 0 0 body < n).
  { destruct Hbody as [[-> _] | ->]; auto. cbn [backtick_loop]. change (ceq c_sp c_bt) with false. cbv iota.
    rewrite backtick_loop_snoc_sp. exact Hb. }
  rewrite (closing_run_found (length body) body) with (mx := 0) (cur := 0); auto.
  - rewrite !app_length. lia.
  - right. destruct Hbody as [[-> [H1 [H2 H3]]] | ->].
    + destruct (exists_last H2) as [a [c E]]. exists a, c. split; auto. intro; subst. eapply H3; eauto.
    + exists (c_sp :: content), c_sp. split; [reflexivity|discriminate].
Qed.

Lemma format_code_span_roundtrip : forall content rest,
  content <> [] -> ~ In c_nl content ->
  ~ (sp_both_ends content /\ all_spaces content = false) ->
  (forall c r, rest = c :: r -> c <> c_bt) ->
  parse_code_span (format_code_span content ++ rest) = Some (content, rest).
Proof.
  intros content rest Hne Hnl Hsp Hrest. unfold format_code_span.
  set (mx := backtick_loop 0 0 content).
  set (n := if 0 <? mx then mx + 1 else 1).
  assert (Hn : mx < n /\ 0 < n) by (unfold n; destruct (Nat.ltb_spec 0 mx); lia).
  destruct content as [|f content']; [congruence|].
  set (content := f :: content') in *.
  destruct (ceq f c_bt || ceq (last content c_nul) c_bt) eqn:E.
  - replace ((repc c_bt n ++ [c_sp] ++ content ++ [c_sp] ++ repc c_bt n) ++ rest)
      with (repc c_bt n ++ (c_sp :: content ++ [c_sp]) ++ repc c_bt n ++ rest)
      by (cbn [app]; rewrite <- !app_assoc; cbn [app]; rewrite <- !app_assoc; reflexivity).
    rewrite (code_span_raw _ content); try tauto; auto.
    f_equal. f_equal. rewrite nl_to_sp_id.
    + apply strip_one_pad. apply orb_true_iff in E. destruct E as [E|E]; apply ceq_true in E.
      * exists f. split; [left; reflexivity|]. subst f. discriminate.
      * exists (last content c_nul). split; [|rewrite E; discriminate].
        destruct (last_app content c_nul Hne) as [a Ha]. rewrite Ha at 2. apply in_or_app. right. left. reflexivity.
    + intros [H|H]; [discriminate|]. apply in_app_or in H. destruct H as [H|[H|[]]]; [auto|discriminate].
  - apply orb_false_iff in E. destruct E as [E1 E2]. apply ceq_false in E1. apply ceq_false in E2.
    replace ((repc c_bt n ++ content ++ repc c_bt n) ++ rest)
      with (repc c_bt n ++ content ++ repc c_bt n ++ rest) by (rewrite <- !app_assoc; reflexivity).
    rewrite (code_span_raw _ content); try tauto; auto.
    + rewrite nl_to_sp_id; auto. rewrite strip_one_id; auto.
    + left. repeat split; auto.
      * intros r H. unfold content in H. inversion H. congruence.
      * intros a H. apply E2. rewrite H. apply last_last.
Qed.

(** ** escape_table_cell *)
Lemma two_step_ind : forall (P : str -> Prop),
  P [] -> (forall c, P [c]) -> (forall c d r, P (d :: r) -> P r -> P (c :: d :: r)) -> forall s, P s.
Proof.
  intros P H0 H1 H2. assert (forall s, P s /\ forall c, P (c :: s)) as A.
  { induction s as [|d s [I1 I2]]; split; auto. }
  intro s; apply A.
Qed.

Lemma etc_bs : forall d r, escape_table_cell (c_bs :: d :: r) = c_bs :: d :: escape_table_cell r.
Proof. reflexivity. Qed.
Lemma etc_pipe : forall r, escape_table_cell (c_pipe :: r) = c_bs :: c_pipe :: escape_table_cell r.
Proof. reflexivity. Qed.
Lemma etc_other : forall c r, c <> c_bs -> c <> c_pipe -> escape_table_cell (c :: r) = c :: escape_table_cell r.
Proof.
  intros c r H1 H2. cbn [escape_table_cell]. destruct (ceq_spec c c_bs); [congruence|].
  destruct (ceq_spec c c_pipe); [congruence|]. reflexivity.
Qed.

(** A two-step induction along the model's own recursion. *)
Lemma cell_ind : forall (P : str -> Prop),
  P [] -> P [c_bs] ->
  (forall d r, P r -> P (c_bs :: d :: r)) ->
  (forall r, P r -> P (c_pipe :: r)) ->
  (forall c r, c <> c_bs -> c <> c_pipe -> P r -> P (c :: r)) ->
  forall s, P s.
Proof.
  intros P H0 H1 H2 H3 H4. apply two_step_ind; auto.
  - intro c. destruct (ceq_spec c c_bs); [subst; auto|]. destruct (ceq_spec c c_pipe); [subst; auto|]. auto.
  - intros c d r I1 I2. destruct (ceq_spec c c_bs); [subst; auto|]. destruct (ceq_spec c c_pipe); [subst; auto|]. auto.
Qed.

Lemma cell_no_pipe_parity : forall s, pipes_parity false (escape_table_cell s) = 0.
Proof.
  apply cell_ind; try reflexivity; auto.
  intros c r H1 H2 IH. rewrite etc_other; auto. cbn [pipes_parity].
  destruct (ceq_spec c c_bs); [congruence|]. destruct (ceq_spec c c_pipe); [congruence|]. exact IH.
Qed.
Lemma cell_no_pipe_prev : forall s b, pipes_prev b (escape_table_cell s) = 0.
Proof.
  apply (cell_ind (fun s => forall b, pipes_prev b (escape_table_cell s) = 0)); intros; auto.
  - rewrite etc_bs. cbn [pipes_prev]. change (ceq c_bs c_pipe) with false. rewrite ceq_refl.
    cbn [andb negb]. rewrite andb_false_r. cbn. apply H.
  - rewrite etc_pipe. cbn [pipes_prev]. change (ceq c_bs c_pipe) with false. rewrite !ceq_refl. cbn. apply H.
  - rewrite etc_other; auto. cbn [pipes_prev]. destruct (ceq_spec c c_pipe); [congruence|]. cbn. apply H1.
Qed.
Lemma cell_idem : forall s, escape_table_cell (escape_table_cell s) = escape_table_cell s.
Proof.
  apply cell_ind; try reflexivity; intros.
  - rewrite !etc_bs. congruence.
  - rewrite etc_pipe, etc_bs. congruence.
  - rewrite etc_other; auto. rewrite etc_other; auto. congruence.
Qed.

Lemma cell_head : forall s r, escape_table_cell s <> c_pipe :: r.
Proof.
  apply (cell_ind (fun s => forall r, escape_table_cell s <> c_pipe :: r)); intros; try discriminate.
  rewrite etc_other; auto. intro E. inversion E. congruence.
Qed.
Lemma up_cons : forall c r, c <> c_bs -> unescape_pipes (c :: r) = c :: unescape_pipes r.
Proof.
  intros c r H. cbn [unescape_pipes]. destruct r; auto. destruct (ceq_spec c c_bs); [congruence|]. reflexivity.
Qed.
Lemma up_bs : forall r, (forall r', r <> c_pipe :: r') -> unescape_pipes (c_bs :: r) = c_bs :: unescape_pipes r.
Proof.
  intros r H. cbn [unescape_pipes]. destruct r as [|d r]; auto. destruct (ceq_spec d c_pipe); [subst; exfalso; eapply H; eauto|].
  rewrite andb_false_r. reflexivity.
Qed.
Lemma up_bs_pipe : forall r, unescape_pipes (c_bs :: c_pipe :: r) = c_pipe :: unescape_pipes r.
Proof. intros. cbn [unescape_pipes]. rewrite !ceq_refl. cbn [andb]. destruct r; reflexivity. Qed.

Lemma cms_bs : forall d r, cm_unescape (c_bs :: d :: r) =
  if is_ascii_punct d then d :: cm_unescape r else c_bs :: cm_unescape (d :: r).
Proof. intros. unfold cm_unescape. cbn [cm_scan]. rewrite ceq_refl. destruct (is_ascii_punct d); reflexivity. Qed.
Lemma cms_other : forall c r, c <> c_bs -> cm_unescape (c :: r) = c :: cm_unescape r.
Proof. intros. unfold cm_unescape. cbn [cm_scan]. destruct (ceq_spec c c_bs); [congruence|]. reflexivity. Qed.

Lemma cell_text : forall s, cm_unescape (unescape_pipes (escape_table_cell s)) = cm_unescape s.
Proof.
  apply cell_ind; try reflexivity; intros.
  - rewrite etc_bs. destruct (ceq_spec d c_pipe).
    + subst. rewrite up_bs_pipe. rewrite cms_other by discriminate. rewrite cms_bs. cbn. congruence.
    + rewrite up_bs by (intros; intro E; inversion E; congruence).
      destruct (ceq_spec d c_bs).
      * subst. rewrite up_bs by (intros; apply cell_head). rewrite !cms_bs. cbn. congruence.
      * rewrite up_cons; auto. rewrite !cms_bs. destruct (is_ascii_punct d); [congruence|].
        rewrite !cms_other; auto. congruence.
  - rewrite etc_pipe, up_bs_pipe. rewrite !cms_other by discriminate. congruence.
  - rewrite etc_other; auto. rewrite up_cons; auto. rewrite !cms_other; auto. congruence.
Qed.

Lemma count_unescaped_pipes_prev : forall s prev,
  count_unescaped_pipes_from prev s =
  pipes_prev (match prev with Some p => ceq p c_bs | None => false end) s.
Proof. induction s as [|c s IH]; intros; cbn [count_unescaped_pipes_from pipes_prev]; auto. rewrite IH. reflexivity. Qed.
