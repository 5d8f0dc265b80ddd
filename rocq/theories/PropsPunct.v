(** Properties C09 to C13: punctuation. *)
From Coq Require Import Bool Arith NArith String Lia List.
From Verif Require Import Base BaseFacts OptsModel PunctModel PunctProof.
Import ListNotations.

(** C09.  [run_ellipsis f s t]: [t] is [s] with every maximal run of [n]
    periods replaced by [f n] and nothing else changed.  [doc_run] is the
    documented behaviour: exactly three become one ellipsis, other runs stay.
    Holds for texts without four consecutive periods, with idempotence. *)
Theorem C09_ellipsis_partial : forall s : str,
  ~ occurs (repc c_dot 4) s ->
  run_ellipsis doc_run s (transform_ellipsis s)
  /\ transform_ellipsis (transform_ellipsis s) = transform_ellipsis s.
Proof. exact te_doc. Qed.
Print Assumptions C09_ellipsis_partial.
Example C09_example :
  ~ occurs (repc c_dot 4) (lit "Wait... ok.. a.")
  /\ transform_ellipsis (lit "Wait... ok.. a.") = lit "Wait" ++ [c_ellipsis] ++ lit " ok.. a.".
Proof.
  split; [|reflexivity]. intro H. apply occurs_dec in H. vm_compute in H. discriminate.
Qed.

(** What happens to every run, for all texts: each group of four becomes an
    ellipsis and a period, a remaining group of three becomes an ellipsis. *)
Theorem C09_ellipsis_all_runs : forall s : str,
  run_ellipsis (fun n => flat_map (fun _ => [c_ellipsis; c_dot]) (repeat tt (n / 4))
                         ++ (if n mod 4 =? 3 then [c_ellipsis] else repc c_dot (n mod 4)))
    s (transform_ellipsis s).
Proof.
  intro s. eapply run_ellipsis_ext; [eapply te_exact; reflexivity|].
  intros n _. unfold dot_run. f_equal. induction (n / 4); simpl; congruence.
Qed.
Print Assumptions C09_ellipsis_all_runs.
Example C09_runs_example : transform_ellipsis (lit ".......") = [c_ellipsis; c_dot; c_ellipsis].
Proof. reflexivity. Qed.

(** The documented "four or more are preserved" is false of the code. *)
Theorem C09_four_dots_preserved_refuted : exists s : str,
  ~ run_ellipsis doc_run s (transform_ellipsis s).
Proof.
  exists (lit "....").
  assert (G : forall s t, run_ellipsis doc_run s t -> s = repc c_dot 4 -> t <> [c_ellipsis; c_dot]).
  { intros s t H E. destruct H as [|c r r' Hc Hr|n r r' Hn Hr H2].
    - discriminate.
    - inversion E. congruence.
    - assert (L : n + List.length r = 4).
      { apply (f_equal (@List.length char)) in E. rewrite app_length, !repc_length in E. exact E. }
      destruct r as [|x r].
      + replace n with 4 by (cbn in L; lia). discriminate.
      + assert (x = c_dot).
        { assert (K : In x (repc c_dot 4)) by (rewrite <- E; apply in_or_app; right; left; reflexivity).
          cbn in K. intuition. }
        subst. exfalso. eapply Hr; eauto. }
  intro H. eapply G; [exact H|reflexivity|reflexivity].
Qed.
Print Assumptions C09_four_dots_preserved_refuted.
(** Idempotence is false too: six periods. *)
Theorem C09_idempotent_refuted : exists s : str,
  transform_ellipsis (transform_ellipsis s) <> transform_ellipsis s.
Proof. exists (lit "......"). vm_compute. discriminate. Qed.
Print Assumptions C09_idempotent_refuted.

(** C10, multi-character patterns: no occurrence remains, re-conversion
    changes nothing, and replacing each dash by the pattern restores the text
    (so nothing but occurrences of the pattern was touched). *)
Theorem C10_multichar_dash : forall (t p : str) (dash : char),
  2 <= List.length p -> valid_pattern p -> In dash [c_emdash; c_endash] ->
  ~ occurs p (transform_dashes t p dash)
  /\ transform_dashes (transform_dashes t p dash) p dash = transform_dashes t p dash
  /\ (~ In dash t -> put_back p dash (transform_dashes t p dash) = t).
Proof.
  intros t p dash H2 [V1 V2] Hd.
  assert (Hq : Forall (fun c => c <> dash) p).
  { apply graphic_not; auto. destruct Hd as [<-|[<-|[]]]; reflexivity. }
  assert (A : ~ occurs p (transform_dashes t p dash)) by (apply td_multi_complete; auto).
  repeat split; auto.
  - apply td_no_occurs; auto.
  - intro Hn. unfold transform_dashes. destruct (is_nil p); [apply put_back_id; auto|apply td_put_back; auto].
Qed.
Print Assumptions C10_multichar_dash.
Example C10_multi_example :
  transform_dashes (lit "a---b -- c") (lit "--") c_emdash
  = lit "a" ++ [c_emdash] ++ lit "-b " ++ [c_emdash] ++ lit " c"
  /\ valid_pattern (lit "--").
Proof. split; [reflexivity|]. split; [discriminate|repeat constructor]. Qed.

(** C10, single-character patterns: [dash1_rel] converts exactly the
    occurrences with whitespace (or the end of the text) on both sides. *)
Theorem C10_single_char_dash : forall (t : str) (p dash : char),
  is_ascii_graphic p = true -> In dash [c_emdash; c_endash] ->
  dash1_rel p dash None t (transform_dashes t [p] dash)
  /\ transform_dashes (transform_dashes t [p] dash) [p] dash = transform_dashes t [p] dash.
Proof.
  intros t p dash Hp Hd. split.
  - apply td_single. reflexivity.
  - apply td_single_idem.
    + unfold is_ascii_graphic, is_ws in *. lia.
    + destruct Hd as [<-|[<-|[]]]; reflexivity.
    + intro E. subst p. destruct Hd as [<-|[<-|[]]]; discriminate.
Qed.
Print Assumptions C10_single_char_dash.
Example C10_single_example :
  transform_dashes (lit "well-known - a -b") [c_dash] c_endash
  = lit "well-known " ++ [c_endash] ++ lit " a -b".
Proof. reflexivity. Qed.

(** C10, both patterns: the em dash is always reachable; the en dash is
    reachable exactly when the em pattern does not shadow it. *)
Theorem C10_reachability : forall em en : str,
  valid_pattern em -> valid_pattern en -> em <> en ->
  (exists t, In c_emdash (dash_passes em en t) /\ ~ In c_emdash t)
  /\ ((exists t, In c_endash (dash_passes em en t) /\ ~ In c_endash t)
      <-> ~ (2 <= List.length em /\ occurs em en)).
Proof.
  intros em en Vm Vn Hne.
  assert (G : forall p c, valid_pattern p -> (126 < c)%N -> ~ In c p).
  { intros p c [_ V] Hc Hin. pose proof (graphic_not _ _ V Hc) as F. rewrite Forall_forall in F. eapply F; eauto. }
  split; [|split].
  - exists em. rewrite em_reachable; auto. split; [left; reflexivity|]. apply G; auto. reflexivity.
  - intros [t [H1 H2]] [H3 H4]. rewrite en_unreachable in H1; auto.
    (* the em pass never writes an en dash *)
    clear - H1 H2. unfold transform_dashes in H1. destruct (is_nil em); [auto|].
    revert H1 H2. generalize (@None char). generalize (List.length t) as k. intro k. revert t.
    induction k as [|k IH]; intros t o H1 H2; [auto|]. destruct t as [|c r]; [auto|].
    cbn [transform_dashes_from] in H1.
    assert (Hr : ~ In c_endash r) by (intro; apply H2; right; auto).
    assert (K : forall q, In c_endash (c :: transform_dashes_from k q em c_emdash r) -> False).
    { intros q [E|E]; [apply H2; left; auto|]. eapply IH; eauto. }
    destruct (strip_prefix em (c :: r)) as [a|] eqn:E.
    + apply strip_prefix_some in E.
      assert (Ha : ~ In c_endash a) by (intro; apply H2; rewrite E; apply in_or_app; auto).
      assert (K2 : forall q, In c_endash (c_emdash :: transform_dashes_from k q em c_emdash a) -> False).
      { intros q [E2|E2]; [discriminate|]. eapply IH; eauto. }
      destruct (List.length em =? 1); eauto.
      destruct ((opt_none o || opt_is is_ws o) && (opt_none (hd_opt a) || opt_is is_ws (hd_opt a))); eauto.
    + eauto.
  - intro H. exists en. rewrite en_reachable; auto. split; [left; reflexivity|]. apply G; auto. reflexivity.
Qed.
Print Assumptions C10_reachability.
Example C10_reach_example : dash_passes (lit "---") (lit "--") (lit "a--b---c") = lit "a" ++ [c_endash] ++ lit "b" ++ [c_emdash] ++ lit "c".
Proof. reflexivity. Qed.

(** So the claim "each configured pattern is reachable" is false of the code:
    em "--" with en "---" never produces an en dash. *)
Theorem C10_each_reachable_refuted : exists em en : str,
  valid_pattern em /\ valid_pattern en /\ em <> en
  /\ forall t, dash_passes em en t = transform_dashes t em c_emdash.
Proof.
  exists (lit "--"), (lit "---").
  assert (V : valid_pattern (lit "--")) by (split; [discriminate|repeat constructor]).
  split; [exact V|]. split; [split; [discriminate|repeat constructor]|]. split; [discriminate|].
  intro t. apply en_unreachable; auto. exists [], (lit "-"). reflexivity.
Qed.
Print Assumptions C10_each_reachable_refuted.

(** C11: position by position, the quote passes keep every character except
    straight quotes, which may only become curly quotes of their kind, and
    only if the corresponding option is on. *)
Theorem C11_quotes_only_change_quotes : forall (U : Uni) (o : Options) (t : str),
  em_dash o = DDisabled -> en_dash o = DDisabled -> ellipsis o = false ->
  Forall2 (fun a b =>
      a = b
      \/ (curly_double_quotes o = true /\ a = c_dq /\ (b = c_ldq \/ b = c_rdq))
      \/ ((curly_single_quotes o = true \/ curly_apostrophes o = true)
          /\ a = c_sq /\ (b = c_lsq \/ b = c_rsq)))
    t (transform_punctuation U o t).
Proof.
  intros U o t H1 H2 H3. unfold transform_punctuation. rewrite H1, H2, H3.
  pose proof (quote_passes_rel U (curly_double_quotes o) (curly_single_quotes o) (curly_apostrophes o) t) as H.
  unfold quote_passes in H. induction H; constructor; auto.
  inversion H; subst; auto; right; [left|left|right|right];
    repeat split; auto; apply orb_true_iff; assumption.
Qed.
Print Assumptions C11_quotes_only_change_quotes.
(** All straight double quotes are converted when the option is on. *)
Theorem C11_double_quotes_all_converted : forall t : str, ~ In c_dq (transform_double_quotes t).
Proof. intro t. apply double_quotes_gone. Qed.
Print Assumptions C11_double_quotes_all_converted.
Definition quotes_only : Options :=
  {| line_width := 80; setext_h1 := true; setext_h2 := true; heading_sentence_case := false;
     heading_proper_nouns := []; heading_common_nouns := []; unordered_marker := UHyphen;
     leading_spaces := 1; trailing_spaces := 2; indent_width := 4; odd_level_marker := OPeriod;
     even_level_marker := OParenthesis; ordered_list_pad := PadStart; ordered_list_indent_width := 4;
     fence_char := FTilde; min_fence_length := 4; space_after_fence := true; default_language := [];
     thematic_break_style := default_thematic_break_style; thematic_break_leading_spaces := 3;
     curly_double_quotes := true; curly_single_quotes := true; curly_apostrophes := true;
     ellipsis := false; en_dash := DDisabled; em_dash := DDisabled; code_formatters := [] |}.
Example C11_example :
  transform_punctuation uni_ascii quotes_only (lit """it's"" 'ok'")
  = [c_ldq] ++ lit "it" ++ [c_rsq] ++ lit "s" ++ [c_rdq] ++ lit " " ++ [c_lsq] ++ lit "ok" ++ [c_rsq].
Proof. reflexivity. Qed.

(** The option switches drive the passes described above: em dash, en dash,
    ellipsis, quotes, in this order, each only if switched on. *)
Definition quotes_rel (o : Options) (a b : char) : Prop :=
  a = b
  \/ (curly_double_quotes o = true /\ a = c_dq /\ (b = c_ldq \/ b = c_rdq))
  \/ ((curly_single_quotes o = true \/ curly_apostrophes o = true) /\ a = c_sq /\ (b = c_lsq \/ b = c_rsq)).
Definition dashed (d : DashSetting) (dash : char) (s t : str) : Prop :=
  match d with
  | DDisabled => t = s
  | DPattern [p] => dash1_rel p dash None s t
  | DPattern p => ~ occurs p t /\ (~ In dash s -> put_back p dash t = s)
  end.
Definition dash_ok (d : DashSetting) : Prop := match d with DDisabled => True | DPattern p => valid_pattern p end.
Lemma dashed_spec : forall d dash s, dash_ok d -> In dash [c_emdash; c_endash] ->
  dashed d dash s (match d with DPattern p => transform_dashes s p dash | DDisabled => s end).
Proof.
  intros d dash s V Hd. destruct d as [|p]; [reflexivity|]. cbn in V. destruct V as [V1 V2].
  destruct p as [|a [|b r]]; [congruence| |].
  - cbn. apply C10_single_char_dash; auto. inversion V2; auto.
  - cbn -[transform_dashes]. destruct (C10_multichar_dash s (a :: b :: r) dash) as (K1 & _ & K3); auto; [cbn; lia|split; auto].
Qed.
Theorem C10_C11_pipeline : forall (U : Uni) (o : Options) (t : str),
  dash_ok (em_dash o) -> dash_ok (en_dash o) -> exists t1 t2 t3,
  dashed (em_dash o) c_emdash t t1 /\ dashed (en_dash o) c_endash t1 t2
  /\ (ellipsis o = true -> t3 = transform_ellipsis t2) /\ (ellipsis o = false -> t3 = t2)
  /\ Forall2 (quotes_rel o) t3 (transform_punctuation U o t)
  /\ transform_punctuation U o t = quote_passes U (curly_double_quotes o) (curly_single_quotes o) (curly_apostrophes o) t3.
Proof.
  intros U o t V1 V2. unfold transform_punctuation.
  set (t1 := match em_dash o with DPattern p => _ | DDisabled => _ end).
  set (t2 := match en_dash o with DPattern p => _ | DDisabled => _ end).
  exists t1, t2, (if ellipsis o then transform_ellipsis t2 else t2).
  split; [apply dashed_spec; cbn; auto|]. split; [apply dashed_spec; cbn; auto|].
  split; [intros ->; reflexivity|]. split; [intros ->; reflexivity|]. split; [|reflexivity].
  generalize (if ellipsis o then transform_ellipsis t2 else t2) as t3. intro t3. clear.
  pose proof (quote_passes_rel U (curly_double_quotes o) (curly_single_quotes o) (curly_apostrophes o) t3) as H.
  unfold quote_passes in H. induction H; constructor; auto.
  inversion H; subst; unfold quotes_rel; auto; right; [left|left|right|right];
    repeat split; auto; apply orb_true_iff; assumption.
Qed.
Print Assumptions C10_C11_pipeline.

(** C12: applying the quote passes twice equals applying them once, for every
    combination of switches, provided quote characters are not letters and
    no letter is followed by two straight single quotes. *)
Theorem C12_quotes_idempotent_partial : forall (U : Uni) (dq sq ap : bool) (t : str),
  quotes_not_letters U -> letter_two_quotes U t = false ->
  quote_passes U dq sq ap (quote_passes U dq sq ap t) = quote_passes U dq sq ap t.
Proof. intros. apply quote_passes_idem; assumption. Qed.
Print Assumptions C12_quotes_idempotent_partial.
(** Without the single-quote pass no restriction on the text is needed. *)
Theorem C12_double_and_apostrophe_idempotent : forall (U : Uni) (t : str),
  quotes_not_letters U ->
  transform_double_quotes (transform_double_quotes t) = transform_double_quotes t
  /\ transform_apostrophes U (transform_apostrophes U t) = transform_apostrophes U t.
Proof.
  intros U t H. split.
  - apply double_quotes_id. apply double_quotes_gone.
  - apply apostrophes_idem; assumption.
Qed.
Print Assumptions C12_double_and_apostrophe_idempotent.
Example C12_example : quotes_not_letters uni_ascii
  /\ letter_two_quotes uni_ascii (lit "'rock 'n' roll', goin' home") = false.
Proof.
  split; [|reflexivity]. intros c H. cbn in H.
  repeat (destruct H as [<-|H]; [split; reflexivity|]). destruct H.
Qed.
(** The excluded texts really fail. *)
Theorem C12_quotes_idempotent_refuted : exists (t : str),
  let p := quote_passes uni_ascii true true false in p (p t) <> p t.
Proof. exists (lit "goin''"). vm_compute. discriminate. Qed.
Print Assumptions C12_quotes_idempotent_refuted.

(** C13: dash settings are rejected exactly when both patterns are set and equal. *)
Theorem C13_validate_dash_settings : forall o : Options,
  validate_dash_settings o = Rerr <-> exists p, en_dash o = DPattern p /\ em_dash o = DPattern p.
Proof.
  intro o. unfold validate_dash_settings. destruct (en_dash o) as [|en], (em_dash o) as [|em]; split; intro H;
    try discriminate; try (destruct H as [p [H1 H2]]; discriminate).
  - destruct (seqb en em) eqn:E; [|discriminate]. apply seqb_true in E. subst. eauto.
  - destruct H as [p [H1 H2]]. inversion H1; inversion H2; subst. rewrite seqb_refl. reflexivity.
Qed.
Print Assumptions C13_validate_dash_settings.
Example C13_example : validate_dash_settings default_options = Rok tt.
Proof. reflexivity. Qed.
