(** Proofs about code blocks. *)
From Coq Require Import Bool Arith NArith Lia ZifyBool ZifyNat ZifyN String List.
From Verif Require Import Base BaseFacts SpecInline OptsModel CodeModel SpecCode.
Import ListNotations.

(** ** Lines *)
Definition line_char (c : char) : Prop := c <> c_nl /\ c <> c_cr.

Lemma strip_cr_rev_id : forall cur, Forall line_char cur -> strip_cr (rev cur) = rev cur.
Proof.
  intros cur H. unfold strip_cr. rewrite rev_involutive. destruct cur as [|c r]; auto.
  inversion H as [|? ? [_ K] _]; subst. apply ceq_false in K. rewrite K. reflexivity.
Qed.

Lemma lines_cm_aux : forall n s cur, List.length s <= n -> Forall line_char cur -> no_lone_cr s ->
  lines_aux cur s = cm_lines_aux cur s /\ Forall (Forall line_char) (lines_aux cur s).
Proof.
  induction n as [|n IH]; intros s cur Hl Hc Hs.
  - destruct s; [|cbn in Hl; lia]. cbn. destruct cur; cbn; auto. split; auto. constructor; auto.
    apply Forall_rev in Hc. exact Hc.
  - destruct s as [|x r]; [apply IH; cbn; auto; lia|]. destruct Hs as [Hx Hs].
    cbn [lines_aux cm_lines_aux]. destruct (ceq_spec x c_nl) as [->|Hn].
    + rewrite strip_cr_rev_id by auto. destruct (IH r []) as [E F]; auto; [cbn in Hl; lia|].
      rewrite E. split; auto. constructor; [apply Forall_rev in Hc; exact Hc|]. rewrite <- E; auto.
    + destruct (ceq_spec x c_cr) as [->|Hr].
      * destruct Hx as [r' ->]; auto. cbn [lines_aux]. change (ceq c_nl c_nl) with true. cbn iota.
        cbn [rev]. unfold strip_cr. rewrite rev_app_distr. cbn [rev app]. change (ceq c_cr c_cr) with true. cbn iota.
        rewrite rev_involutive. destruct (IH r' []) as [E F]; auto; [cbn in Hl; lia|apply Hs|].
        rewrite E. split; auto. constructor; [apply Forall_rev in Hc; exact Hc|]. rewrite <- E; auto.
      * apply IH; [cbn in Hl; lia| |auto]. constructor; auto. split; auto.
Qed.
Lemma lines_cm : forall s, no_lone_cr s -> lines s = cm_lines s.
Proof. intros. apply (lines_cm_aux (List.length s)); auto. Qed.
Lemma lines_line_chars : forall s, no_lone_cr s -> Forall (Forall line_char) (lines s).
Proof. intros. apply (lines_cm_aux (List.length s)); auto. Qed.

Lemma cm_lines_aux_line : forall l cur rest, Forall line_char l ->
  cm_lines_aux cur (l ++ c_nl :: rest) = (rev cur ++ l) :: cm_lines rest.
Proof.
  induction l as [|x l IH]; intros cur rest H.
  - cbn. rewrite app_nil_r. reflexivity.
  - inversion H as [|? ? [K1 K2] K3]; subst. cbn [app cm_lines_aux].
    apply ceq_false in K1, K2. rewrite K1, K2, IH by auto. cbn [rev]. rewrite <- app_assoc. reflexivity.
Qed.
Lemma cm_lines_line : forall l rest, Forall line_char l -> cm_lines (l ++ c_nl :: rest) = l :: cm_lines rest.
Proof. intros. unfold cm_lines. rewrite cm_lines_aux_line by auto. reflexivity. Qed.
Lemma cm_lines_flat : forall {A} (f : A -> str) ls rest, Forall (fun l => Forall line_char (f l)) ls ->
  cm_lines (flat_map (fun l => f l ++ [c_nl]) ls ++ rest) = map f ls ++ cm_lines rest.
Proof.
  induction ls as [|l ls IH]; intros rest H; auto. inversion H; subst. cbn [flat_map map app].
  rewrite <- !app_assoc. cbn [app]. rewrite cm_lines_line by auto. rewrite IH by auto. reflexivity.
Qed.

(** ** Words and trimming *)
Lemma split_ws_aux_cur : forall s cur, cur <> [] -> split_ws_aux cur s <> [].
Proof.
  induction s as [|x r IH]; intros cur H; cbn.
  - destruct cur; cbn; congruence.
  - destruct (is_ws x); [destruct cur; cbn; congruence|]. apply IH. discriminate.
Qed.
Lemma split_whitespace_cons_ws : forall x r, is_ws x = true -> split_whitespace (x :: r) = split_whitespace r.
Proof. intros. unfold split_whitespace. cbn. rewrite H. reflexivity. Qed.
Lemma split_ws_aux_app_ws : forall s cur t, Forall (fun c => is_ws c = true) t ->
  split_ws_aux cur (s ++ t) = split_ws_aux cur s.
Proof.
  induction s as [|x r IH]; intros cur t H; cbn.
  - revert cur. induction H as [|y t Hy H IHt]; intros cur; cbn; auto. rewrite Hy. rewrite IHt. cbn.
    destruct cur; reflexivity.
  - rewrite !IH by auto. reflexivity.
Qed.
Lemma split_whitespace_ws_app : forall a s, Forall (fun c => is_ws c = true) a ->
  split_whitespace (a ++ s) = split_whitespace s.
Proof. induction 1; auto. cbn [app]. rewrite split_whitespace_cons_ws; auto. Qed.
Lemma split_whitespace_trim : forall s, split_whitespace (trim s) = split_whitespace s.
Proof.
  intros. destruct (trim_app s) as (a & b & E & Ha & Hb). rewrite E at 2.
  rewrite split_whitespace_ws_app by auto. unfold split_whitespace. rewrite split_ws_aux_app_ws; auto.
Qed.
Lemma split_whitespace_nil : forall s, split_whitespace s = [] -> Forall (fun c => is_ws c = true) s.
Proof.
  induction s as [|x r IH]; auto. unfold split_whitespace. cbn. destruct (is_ws x) eqn:E; intros H.
  - constructor; auto.
  - exfalso. revert H. apply split_ws_aux_cur. discriminate.
Qed.
Lemma trim_all_ws : forall s, Forall (fun c => is_ws c = true) s -> trim s = [].
Proof. intros. unfold trim, trim_start. rewrite drop_while_all by auto. reflexivity. Qed.
Lemma trim_nil_split : forall s, trim s = [] <-> split_whitespace s = [].
Proof.
  intros. split; intros H.
  - rewrite <- split_whitespace_trim, H. reflexivity.
  - apply trim_all_ws, split_whitespace_nil, H.
Qed.

Lemma drop_while_end_cons : forall p c s,
  drop_while_end p (c :: s) =
  match drop_while_end p s with [] => if p c then [] else [c] | _ => c :: drop_while_end p s end.
Proof.
  intros. unfold drop_while_end. cbn [rev]. set (l := rev s). clearbody l.
  induction l as [|x l IH]; cbn [app drop_while].
  - destruct (p c); reflexivity.
  - destruct (p x); [exact IH|]. cbn [rev]. rewrite rev_app_distr. cbn. destruct (rev l); reflexivity.
Qed.
Lemma drop_while_end_none_last : forall p a c, p c = false -> drop_while_end p (a ++ [c]) = a ++ [c].
Proof. intros. unfold drop_while_end. rewrite rev_app_distr. cbn. rewrite H. cbn. rewrite rev_involutive. reflexivity. Qed.

(** A trimmed string has no blank at either end. *)
Lemma is_blank_char_ws : forall c, is_blank_char c = true -> is_ws c = true.
Proof.
  intros c H. unfold is_blank_char in H. apply orb_true_iff in H.
  destruct H as [H|H]; apply ceq_true in H; subst; reflexivity.
Qed.
Lemma trim_head : forall s c r, trim s = c :: r -> is_ws c = false.
Proof.
  intros s c r. unfold trim. destruct (trim_end_app (trim_start s)) as (t & E & _). intro H. rewrite H in E.
  unfold trim_start in E. cbn in E. eapply drop_while_head; eauto.
Qed.
Lemma trim_blank_trim : forall s, trim_blank (trim s) = trim s.
Proof.
  intros. unfold trim_blank. destruct (trim s) as [|c r] eqn:E; auto.
  pose proof (trim_head _ _ _ E) as H. assert (Hb : is_blank_char c = false).
  { destruct (is_blank_char c) eqn:K; auto. apply is_blank_char_ws in K. congruence. }
  cbn [drop_while]. rewrite Hb. rewrite <- E.
  unfold trim in *. destruct (trim_end_last (trim_start s)) as [K|(a & d & K & Hd)]; [congruence|].
  rewrite K. apply drop_while_end_none_last. destruct (is_blank_char d) eqn:K2; auto.
  apply is_blank_char_ws in K2. congruence.
Qed.

(** ** Which code is written *)
Lemma assoc_some : forall A k (l : list (str * A)) v, assoc_str k l = Some v -> first_binding k l v.
Proof.
  induction l as [|[k' w] l IH]; cbn; intros v H; [discriminate|]. destruct (seqb k k') eqn:E.
  - apply seqb_true in E. subst. injection H as <-. constructor.
  - apply seqb_false in E. constructor; auto.
Qed.
Lemma assoc_none : forall A k (l : list (str * A)), assoc_str k l = None -> unbound k l.
Proof.
  induction l as [|[k' w] l IH]; cbn; intros H; [intros []|]. destruct (seqb k k') eqn:E; [discriminate|].
  apply seqb_false in E. intros [K|K]; [cbn in K; congruence|]. apply IH in H. apply H, K.
Qed.

Definition failure_warnings (language : str) (failed : option (CodeFormatter * FormatterError)) : list warning :=
  match failed with
  | None => []
  | Some (f, e) =>
      [mkWarning 0 (lit "code formatter '" ++ join [c_sp] (cf_command f) ++ lit "' failed for language '"
                    ++ language ++ lit "': " ++ formatter_error_text e)]
  end.

Lemma code_parts_settles : forall o B k info literal oi content eff,
  code_parts o B k info literal = (oi, content, eff) ->
  oi = block_info o info
  /\ exists failed, settles o B k info literal content (eff_calls eff) failed
                    /\ eff_warnings eff = failure_warnings (block_language o info) failed.
Proof.
  intros o B k info literal oi content eff. unfold code_parts, parse_code_info.
  assert (Hw : split_whitespace (trim info) = split_whitespace info) by apply split_whitespace_trim.
  destruct (is_nil (trim info)) eqn:En.
  - apply is_nil_true in En. pose proof En as Es. apply trim_nil_split in Es.
    cbn [is_nil negb andb]. rewrite andb_true_r.
    assert (Hl : block_language o info = default_language o) by (unfold block_language; rewrite Es; auto).
    assert (Hi : block_info o info = default_language o) by (unfold block_info; rewrite Es; auto).
    assert (Hm : ~ marked_no_format info) by (unfold marked_no_format; rewrite Es; intros []).
    intro H. split.
    { rewrite Hi. destruct (is_nil (default_language o)) eqn:Ed; cbn in H.
      - apply is_nil_true in Ed. rewrite Ed. congruence.
      - destruct (try_format_code o B k (default_language o) literal). congruence. }
    destruct (is_nil (default_language o)) eqn:Ed; cbn in H.
    { injection H as <- <- <-. exists None. split; auto. apply S_no_language. rewrite Hl.
      apply is_nil_true in Ed. auto. }
    apply is_nil_false in Ed. rewrite <- Hl in Ed, H. unfold try_format_code in H.
    destruct B as [run|[cb|]]; cbn in H.
    + destruct (assoc_str (block_language o info) (code_formatters o)) as [f|] eqn:Ea.
      * destruct (run k (cf_command f) literal (cf_timeout f)) as [out|e] eqn:Er; injection H as <- <- <-.
        -- exists None. split; auto. eapply S_success; eauto. apply assoc_some; auto.
        -- exists (Some (f, e)). split; auto. eapply S_failure; eauto. apply assoc_some; auto.
      * injection H as <- <- <-. exists None. split; auto. eapply S_unbound; eauto. apply assoc_none; auto.
    + injection H as <- <- <-. exists None. split; auto. apply S_callback; auto.
    + injection H as <- <- <-. exists None. split; auto. apply S_no_callback; auto.
  - apply is_nil_false in En. rewrite Hw. destruct (split_whitespace info) as [|w ws] eqn:Es.
    { exfalso. apply En. apply trim_nil_split. auto. }
    assert (Hne : w <> []).
    { assert (K : forall s cur, Forall (fun w => w <> []) (split_ws_aux cur s)).
      { clear. induction s as [|x r IH]; intros cur; cbn.
        - destruct (is_nil cur) eqn:E; auto. constructor; auto. apply is_nil_false in E. intro K. apply E.
          destruct cur; auto. cbn in K. destruct (rev cur); discriminate.
        - destruct (is_ws x); auto. destruct (is_nil cur) eqn:E; auto. constructor; auto.
          apply is_nil_false in E. intro K. apply E. destruct cur; auto. cbn in K. destruct (rev cur); discriminate. }
      specialize (K info []). unfold split_whitespace in Es. rewrite Es in K. inversion K; auto. }
    assert (Hl : block_language o info = w) by (unfold block_language; rewrite Es; auto).
    assert (Hi : block_info o info = trim info) by (unfold block_info; rewrite Es; auto).
    assert (Hn : is_nil (trim info) = false) by (apply is_nil_false; auto).
    assert (Hn2 : is_nil w = false) by (apply is_nil_false; auto).
    rewrite Hn, Hn2, Hi. cbn [andb negb].
    destruct (existsb (fun w0 => seqb w0 no_format_keyword) (w :: ws)) eqn:Ex; rewrite ?Hn2; cbn [negb andb].
    + intro H. injection H as <- <- <-. split; auto. exists None. split; auto. apply S_marked.
      unfold marked_no_format. rewrite Es. apply existsb_exists in Ex. destruct Ex as (x & Hx & Kx).
      apply seqb_true in Kx. subst x. exact Hx.
    + assert (Hm : ~ marked_no_format info).
      { unfold marked_no_format. rewrite Es. intro K.
        assert (existsb (fun w0 => seqb w0 no_format_keyword) (w :: ws) = true); [|congruence].
        apply existsb_exists. exists (lit "hongdown-no-format"). split; auto. }
      rewrite <- Hl. intro H. unfold try_format_code in H.
      rewrite <- Hl in Hne.
      destruct B as [run|[cb|]]; cbn in H.
      * destruct (assoc_str (block_language o info) (code_formatters o)) as [f|] eqn:Ea.
        -- destruct (run k (cf_command f) literal (cf_timeout f)) as [out|e] eqn:Er; injection H as <- <- <-; split; auto.
           ++ exists None. split; auto. eapply S_success; eauto. apply assoc_some; auto.
           ++ exists (Some (f, e)). split; auto. eapply S_failure; eauto. apply assoc_some; auto.
        -- injection H as <- <- <-. split; auto. exists None. split; auto. eapply S_unbound; eauto. apply assoc_none; auto.
      * injection H as <- <- <-. split; auto. exists None. split; auto. apply S_callback; auto.
      * injection H as <- <- <-. split; auto. exists None. split; auto. apply S_no_callback; auto.
Qed.

(** ** Fences *)
Lemma run_len_repc : forall c n r, run_len c (repc c n ++ r) = n + run_len c r.
Proof. induction n; intros; cbn; auto. rewrite ceq_refl. unfold repc in IHn. rewrite IHn. reflexivity. Qed.
Lemma run_len_no : forall c r, (forall r', r <> c :: r') -> run_len c r = 0.
Proof. intros. destruct r as [|x r]; auto. cbn. destruct (ceq_spec x c) as [->|]; auto. exfalso. eapply H; eauto. Qed.
Lemma run_len_split : forall c s, s = repc c (run_len c s) ++ skipn (run_len c s) s.
Proof.
  induction s as [|x s IH]; auto. cbn. destruct (ceq_spec x c) as [->|]; auto. cbn.
  f_equal. exact IH.
Qed.
Lemma run_len_max : forall c s r', skipn (run_len c s) s <> c :: r'.
Proof.
  induction s as [|x s IH]; intros r'; cbn; [discriminate|]. destruct (ceq_spec x c) as [->|]; cbn; auto. congruence.
Qed.
Lemma run_len_take : forall c s, List.length (take_while (fun x => ceq x c) s) = run_len c s.
Proof. induction s as [|x s IH]; auto. cbn. destruct (ceq x c); cbn; auto. Qed.
Lemma skipn_repc : forall c n r, skipn n (repc c n ++ r) = r.
Proof. induction n; cbn; auto. Qed.

Lemma fence_chr_cases : forall o, fence_char_char (fence_char o) = c_tilde \/ fence_char_char (fence_char o) = c_bt.
Proof. intros. destruct (fence_char o); cbn; auto. Qed.

(** A line that closes a fence of [n] starts, after white space, with at
    least [n] fence characters. *)
Lemma closing_fence_run : forall fc n l, is_ws fc = false -> 1 <= n ->
  closing_fence fc n l = true -> exists m, fence_run fc l = Some m /\ n <= m.
Proof.
  intros fc n l Hf Hn. unfold closing_fence, fence_indent.
  destruct (run_len c_sp l <=? 3); [|discriminate]. intro H. apply andb_true_iff in H. destruct H as [H _].
  set (s := skipn (run_len c_sp l) l) in *. exists (run_len fc s).
  assert (Hs : trim_start l = s).
  { unfold trim_start. rewrite (run_len_split c_sp l). fold s. rewrite drop_while_app_all by (apply repc_forall; auto).
    destruct s as [|x r] eqn:E; auto. cbn in H. destruct (ceq_spec x fc) as [->|]; [|lia]. cbn. rewrite Hf. reflexivity. }
  unfold fence_run. rewrite Hs. destruct s as [|x r]; [cbn in H; lia|].
  cbn in H. destruct (ceq_spec x fc) as [->|]; [|lia].
  assert (starts_with [fc] (fc :: r) = true) by (apply starts_with_true; exists r; auto).
  rewrite H0. rewrite run_len_take. split; auto. cbn. rewrite ceq_refl. lia.
Qed.

Lemma fold_max_le : forall fc ls m, m <= fold_left (fun m line => match fence_run fc line with Some n => Nat.max m n | None => m end) ls m.
Proof.
  induction ls as [|l ls IH]; intros m; cbn; auto. etransitivity; [|apply IH]. destruct (fence_run fc l); lia.
Qed.
Lemma fold_max_in : forall fc ls m l k, In l ls -> fence_run fc l = Some k ->
  k <= fold_left (fun m line => match fence_run fc line with Some n => Nat.max m n | None => m end) ls m.
Proof.
  induction ls as [|l' ls IH]; intros m l k []; intros H1; cbn.
  - subst. rewrite H1. etransitivity; [|apply fold_max_le]. lia.
  - eauto.
Qed.

Lemma fence_char_not_ws : forall o, is_ws (fence_char_char (fence_char o)) = false.
Proof. intros. destruct (fence_char o); reflexivity. Qed.

Lemma no_line_closes : forall o content n,
  n = Nat.max (min_fence_length o) (max_fence_in_content (fence_char_char (fence_char o)) content + 1) ->
  Forall (fun l => closing_fence (fence_char_char (fence_char o)) n l = false) (lines content).
Proof.
  intros o content n Hn. apply Forall_forall. intros l Hl.
  destruct (closing_fence (fence_char_char (fence_char o)) n l) eqn:E; auto.
  apply closing_fence_run in E; [|apply fence_char_not_ws|lia]. destruct E as (m & E & Hm).
  pose proof (fold_max_in _ _ 0 _ _ Hl E) as K. unfold max_fence_in_content in Hn. lia.
Qed.

Lemma closing_fence_self : forall fc n, is_ws fc = false -> fc <> c_sp -> closing_fence fc n (repc fc n) = true.
Proof.
  intros fc n Hw Hf. unfold closing_fence, fence_indent.
  assert (E : run_len c_sp (repc fc n) = 0).
  { apply run_len_no. intros r'. destruct n; cbn; [discriminate|]. congruence. }
  rewrite E. cbn [Nat.leb skipn]. rewrite <- (app_nil_r (repc fc n)), run_len_repc. cbn [run_len]. rewrite Nat.add_0_r, skipn_repc. cbn.
  rewrite andb_true_r. apply Nat.leb_le. lia.
Qed.

Lemma unindent_0 : forall l, unindent 0 l = l.
Proof. reflexivity. Qed.
Lemma fence_body_app : forall fc n ls close rest,
  Forall (fun l => closing_fence fc n l = false) ls -> closing_fence fc n close = true ->
  fence_body fc n 0 (ls ++ close :: rest) = (ls, rest).
Proof.
  induction ls as [|l ls IH]; intros close rest H1 H2; cbn.
  - rewrite H2. reflexivity.
  - inversion H1; subst. rewrite H3, IH by auto. reflexivity.
Qed.

Lemma cm_scan_no_bs : forall s, Forall (fun c => c <> c_bs) s -> cm_unescape s = s.
Proof.
  induction 1 as [|c s H _ IH]; auto. unfold cm_unescape in *. cbn [cm_scan map].
  apply ceq_false in H. rewrite H. cbn [map snd]. rewrite IH. reflexivity.
Qed.

Lemma opening_fence_written : forall o n info, 3 <= n -> info_survives o info ->
  opening_fence (repc (fence_char_char (fence_char o)) n ++ info_suffix o info)
  = Some (fence_char_char (fence_char o), n, 0, info).
Proof.
  intros o n info Hn (Hc & Ht & Hb & Hs). set (fc := fence_char_char (fence_char o)) in *.
  assert (Hfs : fc <> c_sp) by (unfold fc; destruct (fence_char o); discriminate).
  unfold opening_fence, fence_indent.
  assert (E0 : run_len c_sp (repc fc n ++ info_suffix o info) = 0).
  { apply run_len_no. intros r'. destruct n; [lia|]. cbn. congruence. }
  rewrite E0. cbn [Nat.leb skipn].
  assert (Hr : run_len fc (repc fc n ++ info_suffix o info) = n).
  { rewrite run_len_repc. rewrite run_len_no; [lia|]. intros r'. unfold info_suffix.
    destruct (is_nil info); [discriminate|]. destruct (space_after_fence o); [cbn; congruence|]. cbn. apply Hs; auto. }
  assert (Ho : ceq fc c_bt || ceq fc c_tilde = true) by (unfold fc; destruct (fence_char o); reflexivity).
  destruct n as [|n']; [lia|]. cbn [repc repeat app]. change (fc :: repeat fc n' ++ info_suffix o info) with (repc fc (S n') ++ info_suffix o info).
  rewrite Ho, Hr, skipn_repc.
  assert (Hi : trim_blank (info_suffix o info) = info).
  { unfold info_suffix. destruct (is_nil info) eqn:E; [apply is_nil_true in E; subst; reflexivity|].
    destruct (space_after_fence o); auto. }
  rewrite Hi. assert (Hbt : ceq fc c_bt && contains_char c_bt (info_suffix o info) = false).
  { destruct (ceq_spec fc c_bt) as [E|]; auto. cbn [andb].
    assert (Hfb : fence_char o = FBacktick) by (unfold fc in E; destruct (fence_char o); auto; discriminate).
    apply not_true_is_false. intro K. unfold contains_char in K. apply existsb_exists in K. destruct K as (x & Kx & K).
    apply ceq_true in K. subst x. unfold info_suffix in Kx. destruct (is_nil info); [destruct Kx|].
    apply in_app_iff in Kx. destruct Kx as [Kx|Kx]; [|apply Hb; auto].
    destruct (space_after_fence o); [|destruct Kx]. destruct Kx as [Kx|[]]. discriminate. }
  rewrite Hbt. rewrite cm_scan_no_bs; [destruct n' as [|[|?]]; [lia|lia|reflexivity]|].
  eapply Forall_impl; [|exact Hc]. cbn beta. tauto.
Qed.

Lemma repc_line_char : forall o n, Forall line_char (repc (fence_char_char (fence_char o)) n).
Proof. intros. apply repc_forall. destruct (fence_char o); split; discriminate. Qed.
Lemma info_suffix_line_char : forall o info, info_survives o info -> Forall line_char (info_suffix o info).
Proof.
  intros o info (H & _). unfold info_suffix. destruct (is_nil info); auto. apply Forall_app. split.
  - destruct (space_after_fence o); auto. constructor; auto. split; discriminate.
  - eapply Forall_impl; [|exact H]. cbn beta. unfold line_char. tauto.
Qed.

Lemma strip_all_map : forall f (g : str -> str) ls, (forall l, In l ls -> f (g l) = Some l) ->
  strip_all f (map g ls) = Some ls.
Proof.
  induction ls as [|l ls IH]; intros H; auto. cbn. rewrite H by (left; auto). rewrite IH; auto.
  intros. apply H. right; auto.
Qed.
Lemma strip_all_app : forall f a b x y, strip_all f a = Some x -> strip_all f b = Some y ->
  strip_all f (a ++ b) = Some (x ++ y).
Proof.
  induction a as [|l a IH]; cbn; intros b x y H1 H2.
  - injection H1 as <-. auto.
  - destruct (f l); [|discriminate]. destruct (strip_all f a) eqn:E; [|discriminate]. injection H1 as <-.
    rewrite (IH b l0 y); auto.
Qed.

Lemma strip_quote_prefixed : forall l, strip_quote (lit "> " ++ l) = Some l.
Proof. reflexivity. Qed.
Lemma strip_quote_marker : strip_quote (lit ">") = Some [].
Proof. reflexivity. Qed.

Lemma strip_item_prefixed : forall w l, strip_item w (spaces w ++ l) = Some l.
Proof.
  intros. unfold strip_item, spaces. rewrite run_len_repc. replace (w <=? w + run_len c_sp l) with true by lia.
  rewrite skipn_repc. reflexivity.
Qed.
Lemma strip_item_empty : forall w, strip_item w [] = Some [].
Proof. intros. unfold strip_item. cbn [run_len is_blank forallb]. destruct w; reflexivity. Qed.

(** ** [contains_sub] for runs *)
Lemma find_sub_none : forall p s, find_sub p s = None -> forall a b, s <> a ++ p ++ b.
Proof.
  intros p s. induction s as [|c r IH]; intros H a b E.
  - cbn in H. destruct (starts_with p []) eqn:K; [discriminate|].
    destruct a; [|discriminate]. cbn in E. assert (starts_with p [] = true); [|congruence].
    apply starts_with_true. exists b. auto.
  - cbn in H. destruct (starts_with p (c :: r)) eqn:K; [discriminate|].
    destruct (find_sub p r) eqn:F; [discriminate|]. destruct a as [|x a]; cbn in E.
    + assert (starts_with p (c :: r) = true); [|congruence]. apply starts_with_true. exists b. auto.
    + injection E as -> E. eapply IH; eauto.
Qed.
Lemma find_sub_some : forall p s n, find_sub p s = Some n -> exists a b, s = a ++ p ++ b.
Proof.
  intros p s. induction s as [|c r IH]; intros n H; cbn in H.
  - destruct (starts_with p []) eqn:K; [|discriminate]. apply starts_with_true in K. destruct K as [b K].
    exists [], b. auto.
  - destruct (starts_with p (c :: r)) eqn:K.
    + apply starts_with_true in K. destruct K as [b K]. exists [], b. auto.
    + destruct (find_sub p r) eqn:F; [|discriminate]. destruct (IH _ eq_refl) as (a & b & E).
      exists (c :: a), b. cbn. congruence.
Qed.

(** Every line of a text is a piece of it. *)
Lemma lines_aux_in : forall s cur l, In l (lines_aux cur s) -> exists a b, rev cur ++ s = a ++ l ++ b.
Proof.
  induction s as [|x r IH]; intros cur l H; cbn in H.
  - destruct (is_nil cur); [destruct H|]. destruct H as [<-|[]]. exists [], []. rewrite app_nil_r. auto.
  - destruct (ceq_spec x c_nl) as [->|Hx].
    + destruct H as [<-|H].
      * unfold strip_cr. rewrite rev_involutive. destruct cur as [|c cur]; cbn [rev].
        -- exists [], (c_nl :: r). reflexivity.
        -- destruct (ceq c c_cr).
           ++ exists [], ([c] ++ c_nl :: r). rewrite <- !app_assoc. reflexivity.
           ++ exists [], (c_nl :: r). reflexivity.
      * destruct (IH _ _ H) as (a & b & E). exists (rev cur ++ [c_nl] ++ a), b. cbn in E. rewrite E.
        rewrite <- !app_assoc. reflexivity.
    + destruct (IH _ _ H) as (a & b & E). exists a, b. cbn [rev] in E. rewrite <- app_assoc in E. exact E.
Qed.
Lemma lines_in : forall s l, In l (lines s) -> exists a b, s = a ++ l ++ b.
Proof. intros. apply (lines_aux_in s []). auto. Qed.

Lemma closing_fence_contains : forall fc n l, closing_fence fc n l = true -> exists a b, l = a ++ repc fc n ++ b.
Proof.
  intros fc n l. unfold closing_fence, fence_indent. destruct (run_len c_sp l <=? 3); [|discriminate].
  intro H. apply andb_true_iff in H. destruct H as [H _]. apply Nat.leb_le in H.
  set (i := run_len c_sp l) in *. set (s := skipn i l) in *.
  exists (firstn i l), (repc fc (run_len fc s - n) ++ skipn (run_len fc s) s).
  rewrite <- (firstn_skipn i l) at 1. f_equal. fold s. rewrite (run_len_split fc s) at 1.
  rewrite app_assoc, <- repc_app. f_equal. f_equal. lia.
Qed.
