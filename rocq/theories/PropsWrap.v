(** Properties C06-C08: line wrapping. *)
From Coq Require Import Bool Arith NArith Lia String List.
From Verif Require Import Base BaseFacts WrapModel SpecWrap WrapProof.
Import ListNotations.

Ltac conjs := match goal with |- _ /\ _ => split; [|conjs] | _ => idtac end.

Lemma uni_ascii_width : width_laws uni_ascii.
Proof. repeat split; cbn; intros; rewrite app_length; cbn; lia. Qed.

(** ** C06 and C07 for paragraphs *)

(** Wrapping lays the text out in lines, piece by piece between hard breaks:
    every line is the prefix and a body, nothing but trailing white space of
    a line is dropped, and the bodies hold the visible characters of the
    piece in order.  If the piece has no blank source line and does not start
    with a space, the bodies hold its words: none is split, joined or moved.
    (C07) Before the two spaces of a hard break are added, every line is within
    the width or holds a single unbreakable unit. *)
Theorem C06_C07_wrap_text : forall U t p lw, exists Ls : list (list wline),
  wrap_text U t p lw = render_text (map (map wl_t) Ls)
  /\ Forall2 (lays_out (eq p)) (segments t) Ls
  /\ (width_laws U -> spaced p -> Forall (Forall (line_ok U lw)) Ls).
Proof.
  intros U t p lw. rewrite wrap_text_eq.
  assert (G : forall ss, exists Ls : list (list wline),
    map (fun s => wrap_text_segment U s p lw) ss = map render_piece (map (map wl_t) Ls)
    /\ Forall2 (lays_out (eq p)) ss Ls /\ (width_laws U -> spaced p -> Forall (Forall (line_ok U lw)) Ls)).
  { induction ss as [|s ss IH]; [exists []; repeat split; auto|]. destruct IH as (Ls & E & F & O).
    destruct (first_segment_lines U lw p p s) as (L & E1 & Ln & (q & n & Lp & Lq) & Lsh & Lo & Lw & Lx).
    exists (L :: Ls). split; [|split].
    - cbn [map]. rewrite E, wrap_text_segment_eq, E1. reflexivity.
    - constructor; auto. repeat split; auto.
      + rewrite Forall_forall in *. intros x Hx. split; auto. apply (in_map wl_p) in Hx. rewrite Lp in Hx.
        destruct Hx as [Hx|Hx]; [destruct Lq; congruence|]. apply repeat_spec in Hx. auto.
      + intro C. apply (Lx C).
    - intros W S. constructor; auto. apply Lo. repeat split; auto; apply W. }
  destruct (G (segments t)) as (Ls & E & F & O). exists Ls. split; auto. rewrite E. reflexivity.
Qed.
Print Assumptions C06_C07_wrap_text.
Example C06_C07_example :
  wrap_text uni_ascii (lit "one two `three four` five") (lit "> ") 12
    = lit "> one two" ++ [c_nl] ++ lit "> `three four`" ++ [c_nl] ++ lit "> five"
  /\ width_laws uni_ascii /\ spaced (lit "> ") /\ clean_segment (lit "one two `three four` five").
Proof.
  split; [vm_compute; reflexivity|]. split; [apply uni_ascii_width|]. split; [right; exists (lit ">"); reflexivity|].
  split; [intros r K; discriminate|]. vm_compute. constructor; auto. intro K. inversion K. discriminate.
Qed.

(** The words claim needs the leading-space condition: a leading space is
    moved behind the first character. *)
Theorem C06_leading_space_refuted : exists t,
  wrap_text uni_ascii t [] 80 = lit "a b" /\ words t = [lit "ab"].
Proof. exists (lit " ab"). split; vm_compute; reflexivity. Qed.
Print Assumptions C06_leading_space_refuted.

(** C07 fails for lines with a hard break: the two spaces are not counted. *)
Theorem C07_hard_break_width_refuted : exists t lw l,
  In l (split_on c_nl (wrap_text uni_ascii t [] lw)) /\ lw < u_width uni_ascii l /\ ~ single_unit l.
Proof.
  exists (lit "aa bb cc" ++ [c_nl] ++ lit "d"), 8, (lit "aa bb cc  ").
  split; [replace (split_on c_nl _) with [lit "aa bb cc  "; lit "d"] by (vm_compute; reflexivity); left; reflexivity|].
  split; [vm_compute; lia|]. intros (tok & sps & E & Hu & Hs).
  destruct (Nat.le_gt_cases (List.length tok) 2) as [Hl|Hl].
  - assert (Hc : In (nth 3 (lit "aa bb cc  ") 0%N) sps).
    { rewrite E, app_nth2 by lia. apply nth_In. apply (f_equal (@List.length _)) in E. rewrite app_length in E. cbn in E. lia. }
    rewrite Forall_forall in Hs. apply Hs in Hc. discriminate.
  - destruct tok as [|a [|b [|c r]]]; try (cbn in Hl; lia). cbn in E. injection E as <- <- <- E.
    apply (Hu (lit "aa") r); reflexivity.
Qed.
Print Assumptions C07_hard_break_width_refuted.

(** ** C06 and C07 for list items and the like: a different first prefix *)

(** A piece after a hard break is laid out with the continuation prefix.
    Missing for the full claim (C07): the lines of a piece after a hard break
    may exceed the width by the width of that prefix (refuted below). *)
Theorem C06_C07_wrap_text_first_line_partial : forall U t fp cp lw, exists L Ls s ss,
  segments t = s :: ss
  /\ wrap_text_first_line U t fp cp lw = render_text (map (map wl_t) (L :: Ls))
  /\ lays_out (fun p => p = fp \/ p = cp) s L
  /\ Forall2 (lays_out (fun p => p = cp \/ p = cp ++ cp)) ss Ls
  /\ (Forall clean_segment (s :: ss) -> exists n, map wl_p (L ++ concat Ls) = fp :: repeat cp n)
  /\ (width_laws U -> spaced fp -> spaced cp ->
        Forall (line_ok U lw) L
        /\ Forall (Forall (fun x => u_width U (wl_t x) <= u_width U cp + lw \/ single_unit (wl_b x))) Ls).
Proof.
  intros U t fp cp lw. destruct (segments t) as [|s0 ss] eqn:Es; [exfalso; eapply split_on_nonempty; eauto|].
  rewrite (wrap_text_first_line_eq U lw t fp cp s0 ss Es).
  assert (G : forall ss, exists Ls : list (list wline),
    map (fun s => cp ++ wrap_text_first_line_segment U s [] cp lw) ss = map render_piece (map (map wl_t) Ls)
    /\ Forall2 (lays_out (fun p => p = cp \/ p = cp ++ cp)) ss Ls
    /\ (Forall clean_segment ss -> exists n, map wl_p (concat Ls) = repeat cp n)
    /\ (width_laws U -> spaced cp ->
         Forall (Forall (fun x => u_width U (wl_t x) <= u_width U cp + lw \/ single_unit (wl_b x))) Ls)).
  { clear. induction ss as [|s ss IH]; [exists []; repeat split; auto; exists 0; reflexivity|].
    destruct IH as (Ls & E & F & P & O).
    destruct (first_segment_lines U lw [] cp s) as (L & E1 & Ln & (q & n & Lp & Lq) & Lsh & Lo & Lw & Lx).
    destruct L as [|[[p b] x] L]; [congruence|]. cbn [map wl_p fst] in Lp. injection Lp as -> Lp.
    exists (((cp ++ q, b, cp ++ x) :: L) :: Ls). conjs.
    - cbn [map]. rewrite E, E1. f_equal. unfold render_piece. cbn [map]. destruct L; [reflexivity|].
      cbn [map]. rewrite !join_cons. unfold wl_t at 3. cbn [snd]. rewrite ?app_assoc. reflexivity.
    - constructor; auto. repeat split; auto; try discriminate.
      + inversion Lsh as [|? ? K3 K4]; subst. constructor.
        * split.
          -- cbn. destruct Lq as [->| ->]; [rewrite app_nil_r|]; auto.
          -- destruct K3 as [w [Hw K3]]. exists w. split; auto. cbn in *. rewrite <- !app_assoc. f_equal. exact K3.
        * rewrite Forall_forall in *. intros y Hy. split; auto. apply (in_map wl_p) in Hy. rewrite Lp in Hy.
          apply repeat_spec in Hy. auto.
      + intro C. apply (Lx C).
    - intro C. inversion C; subst. destruct (P H2) as [k Hk]. destruct (Lx H1) as (_ & (m & Hm) & _).
      cbn [map wl_p fst] in Hm. injection Hm as H3 H4. subst q. exists (S (n + k)).
      cbn [concat app map wl_p fst]. rewrite app_nil_r, map_app, Lp, Hk. cbn. rewrite repeat_app. reflexivity.
    - intros W Sc. constructor; auto. assert (K : Forall (line_ok U lw) ((q, b, x) :: L)).
      { apply Lo. repeat split; auto; try apply W. left; reflexivity. }
      inversion K as [|? ? K1 K2]; subst. constructor.
      + destruct K1 as [_ [K1|K1]]; [left|right; exact K1]. cbn in *. rewrite (width_spaced U W); auto. lia.
      + eapply Forall_impl; [|exact K2]. intros y [_ [Hy|Hy]]; [left; lia|right; auto]. }
  destruct (G ss) as (Ls & E & F & P & O).
  destruct (first_segment_lines U lw fp cp s0) as (L & E1 & Ln & (q & n & Lp & Lq) & Lsh & Lo & Lw & Lx).
  exists L, Ls, s0, ss. conjs; auto.
  - rewrite E, E1. reflexivity.
  - repeat split; auto.
    + rewrite Forall_forall in *. intros x Hx. split; auto. apply (in_map wl_p) in Hx. rewrite Lp in Hx.
      destruct Hx as [Hx|Hx]; [destruct Lq; subst; auto|]. apply repeat_spec in Hx. auto.
    + intro C. apply (Lx C).
  - intro C. inversion C; subst. destruct (P H2) as [k Hk]. destruct (Lx H1) as (_ & (m & Hm) & _).
    exists (m + k). rewrite map_app, Hm, Hk. cbn. rewrite repeat_app. reflexivity.
  - intros W Sf Sc. split; auto. apply Lo. repeat split; auto; apply W.
Qed.
Print Assumptions C06_C07_wrap_text_first_line_partial.
Example C06_C07_first_line_example :
  wrap_text_first_line uni_ascii (lit "one two" ++ [c_nl] ++ lit "three four") [] (lit "  ") 8
    = lit "one two" ++ lit "  " ++ [c_nl] ++ lit "  three" ++ [c_nl] ++ lit "  four".
Proof. vm_compute. reflexivity. Qed.

(** After a hard break the continuation prefix is not counted on the first line. *)
Theorem C07_continuation_prefix_refuted : exists t cp lw l,
  spaced cp /\ In l (split_on c_nl (wrap_text_first_line uni_ascii t [] cp lw))
  /\ lw < u_width uni_ascii l /\ exists b, l = cp ++ b /\ ~ single_unit b.
Proof.
  exists (lit "a" ++ [c_nl] ++ lit "bb cc dd"), (lit "    "), 8, (lit "    bb cc dd").
  split; [right; exists (lit "   "); reflexivity|].
  split; [replace (split_on c_nl _) with [lit "a  "; lit "    bb cc dd"] by (vm_compute; reflexivity); right; left; reflexivity|].
  split; [vm_compute; lia|]. exists (lit "bb cc dd"). split; [reflexivity|]. intros (tok & sps & E & Hu & Hs).
  destruct (Nat.le_gt_cases (List.length tok) 2) as [Hl|Hl].
  - assert (Hc : In (nth 3 (lit "bb cc dd") 0%N) sps).
    { rewrite E, app_nth2 by lia. apply nth_In. apply (f_equal (@List.length _)) in E. rewrite app_length in E. cbn in E. lia. }
    rewrite Forall_forall in Hs. apply Hs in Hc. discriminate.
  - destruct tok as [|a [|b [|c r]]]; try (cbn in Hl; lia). cbn in E. injection E as <- <- <- E.
    apply (Hu (lit "bb") r); reflexivity.
Qed.
Print Assumptions C07_continuation_prefix_refuted.

(** ** C08 *)

Lemma trimmed_no_lead : forall l, trimmed l -> no_lead l.
Proof. intros l [H _]. rewrite <- H. apply trim_no_lead. Qed.
Lemma trimmed_end : forall p l, trimmed l -> trim_end (p ++ l) = p ++ l.
Proof.
  intros p l [H Hn]. destruct (trim_end_last (trim_start l)) as [K|(a & c & K & Kc)].
  - unfold trim in H. rewrite K in H. congruence.
  - unfold trim in H. rewrite K in H. rewrite <- H, app_assoc. apply trim_end_snoc_id; auto.
Qed.
Lemma segment_kept : forall U, width_laws U -> forall fp cp lw s, spaced fp ->
  Forall (fun l => trimmed l /\ u_width U fp + u_width U l <= lw /\ u_width U cp + u_width U l <= lw) (soft_lines s) ->
  wrap_text_first_line_segment U s fp cp lw
  = render_piece (match soft_lines s with [] => [] | l :: r => (fp ++ l) :: map (app cp) r end).
Proof.
  intros U W fp cp lw s Sf H. unfold wrap_text_first_line_segment. change c_nul with soft. unfold soft_lines in *.
  destruct (split_on soft s) as [|a [|b r]] eqn:Es; [exfalso; eapply split_on_nonempty; eauto| |].
  - assert (s = a) by (rewrite <- (join_split_on soft s), Es; reflexivity). subst a.
    inversion H as [|? ? (K1 & K2 & K3)]; subst. cbn. apply (single_fit U W); auto.
    + apply trimmed_no_lead; auto.
    + apply trimmed_end; auto.
  - rewrite <- (app_nil_r (a :: b :: r)) at 1. rewrite (first_loop_kept U lw fp cp []).
    + reflexivity.
    + eapply Forall_impl; [|exact H]. cbn beta. tauto.
    + intros l Hl. rewrite Forall_forall in H. apply H in Hl. cbn beta in Hl. tauto.
    + discriminate.
Qed.

(** If every source line fits, the line structure is kept verbatim. *)
Theorem C08_short_lines_kept : forall U t p lw, width_laws U -> spaced p ->
  Forall (fun s => Forall (fun l => trimmed l /\ u_width U p + u_width U l <= lw) (soft_lines s)) (segments t) ->
  wrap_text U t p lw = render_text (map (fun s => map (app p) (soft_lines s)) (segments t)).
Proof.
  intros U t p lw W S H. rewrite wrap_text_eq. unfold render_text. rewrite map_map.
  change hard_break with [c_sp; c_sp; c_nl]. f_equal. apply map_ext_in. intros s Hs. rewrite Forall_forall in H. specialize (H s Hs).
  rewrite wrap_text_segment_eq, (segment_kept U W); auto.
  - destruct (soft_lines s); reflexivity.
  - eapply Forall_impl; [|exact H]. cbn beta. tauto.
Qed.
Print Assumptions C08_short_lines_kept.
Theorem C08_short_lines_kept_first_line : forall U t fp cp lw s ss, width_laws U -> spaced fp ->
  segments t = s :: ss ->
  Forall (fun s => Forall (fun l => trimmed l /\ u_width U fp + u_width U l <= lw /\ u_width U cp + u_width U l <= lw)
                          (soft_lines s)) (segments t) ->
  wrap_text_first_line U t fp cp lw
  = render_text (match soft_lines s with [] => [] | l :: r => (fp ++ l) :: map (app cp) r end
                 :: map (fun s => map (app cp) (soft_lines s)) ss).
Proof.
  intros U t fp cp lw s ss W S E H. rewrite (wrap_text_first_line_eq U lw t fp cp s ss E). rewrite E in H.
  inversion H as [|? ? H1 H2]; subst. unfold render_text. cbn [map]. rewrite map_map.
  change hard_break with [c_sp; c_sp; c_nl]. f_equal. f_equal.
  - apply segment_kept; auto.
  - apply map_ext_in. intros s' Hs. rewrite Forall_forall in H2. specialize (H2 s' Hs).
    rewrite (segment_kept U W); [|left; reflexivity|].
    + unfold soft_lines in *. destruct (split_on soft s') as [|l [|l2 r]] eqn:Es; [exfalso; eapply split_on_nonempty; eauto| |].
      * reflexivity.
      * unfold render_piece. cbn [map app]. rewrite !join_cons, <- !app_assoc. reflexivity.
    + eapply Forall_impl; [|exact H2]. intros l (K1 & K2 & K3). repeat split; auto; try apply K1.
      destruct W as [W0 _]. rewrite W0. lia.
Qed.
Print Assumptions C08_short_lines_kept_first_line.
Example C08_example :
  let t := lit "one" ++ [soft] ++ lit "two  x" ++ [c_nl] ++ lit "three" in
  wrap_text uni_ascii t (lit "> ") 10
  = lit "> one" ++ [c_nl] ++ lit "> two  x  " ++ [c_nl] ++ lit "> three"
  /\ Forall (fun s => Forall (fun l => trimmed l /\ u_width uni_ascii (lit "> ") + u_width uni_ascii l <= 10) (soft_lines s)) (segments t).
Proof.
  split; [vm_compute; reflexivity|]. vm_compute. repeat constructor; try discriminate; lia.
Qed.

(** Short lines in front of the first long line are kept as well. *)
Theorem C08_short_lines_before_long : forall U t p lw ks l rest, width_laws U ->
  soft_lines t = ks ++ l :: rest -> ~ In c_nl t -> ks <> [] ->
  Forall (fun l => trimmed l /\ u_width U p + u_width U l <= lw) ks ->
  exists tail, wrap_text U t p lw = render_piece (map (app p) ks) ++ [c_nl] ++ tail.
Proof.
  intros U t p lw ks l rest W E Hn Hk H. rewrite wrap_text_eq.
  unfold segments. rewrite split_on_no.
  2:{ apply Forall_forall. intros x Hx ->. auto. }
  cbn [map join]. rewrite wrap_text_segment_eq. unfold wrap_text_first_line_segment. change c_nul with soft.
  unfold soft_lines in E. rewrite E. destruct ks as [|k ks]; [congruence|]. cbn [app].
  destruct (ks ++ l :: rest) as [|y ys] eqn:Ey; [destruct ks; discriminate|]. rewrite <- Ey.
  change (k :: ks ++ l :: rest) with ((k :: ks) ++ l :: rest).
  rewrite (first_loop_kept U lw p p (l :: rest)).
  2:{ eapply Forall_impl; [|exact H]. cbn beta. tauto. }
  2:{ intros z Hz. rewrite Forall_forall in H. apply H in Hz. cbn beta in Hz. tauto. }
  2:{ discriminate. }
  assert (N : is_nil (push_nl [] ++ join [c_nl] ((p ++ k) :: map (app p) ks)) = false).
  { cbn. inversion H as [|? ? (K & _)]; subst. pose proof (kept_nonempty p k K) as K2. destruct ks; cbn; auto.
    destruct (p ++ k); [discriminate|reflexivity]. }
  destruct (first_loop_lines U lw p p (l :: rest) false (push_nl [] ++ join [c_nl] ((p ++ k) :: map (app p) ks)))
    as (L & EL & _); [discriminate|].
  rewrite EL. rewrite (push_nl_some _ N). exists (join [c_nl] (map wl_t L)). cbn [push_nl is_nil negb app]. rewrite <- app_assoc. reflexivity.
Qed.
Print Assumptions C08_short_lines_before_long.

(** Hard breaks: as many lines are followed by a hard break as the paragraph
    has hard breaks. *)
Lemma split_on_app_gen : forall c a b, split_on c (a ++ c :: b) = split_on c a ++ split_on c b.
Proof.
  intros c a b. induction a as [|x a IH]; cbn [app split_on].
  - rewrite ceq_refl. reflexivity.
  - destruct (ceq x c); [cbn; rewrite IH; reflexivity|]. rewrite IH.
    destruct (split_on c a) eqn:E; [exfalso; eapply split_on_nonempty; eauto|]. reflexivity.
Qed.
Lemma split_on_length : forall c s, List.length (split_on c s) = S (List.length (filter (ceq c) s)).
Proof.
  intros c s. induction s as [|x s IH]; auto. cbn [split_on filter].
  destruct (ceq_spec x c); destruct (ceq_spec c x); subst; try congruence; cbn [List.length]; [rewrite IH; auto|].
  destruct (split_on c s); cbn in *; [discriminate|exact IH].
Qed.
Definition mark (L : list str) : list str := removelast L ++ [last L [] ++ [c_sp; c_sp]].
Lemma join_mark : forall L, L <> [] -> join [c_nl] L ++ [c_sp; c_sp] = join [c_nl] (mark L).
Proof.
  induction L as [|x [|y r] IH]; intro H; [congruence|reflexivity|].
  rewrite join_cons. unfold mark in *. change (removelast (x :: y :: r)) with (x :: removelast (y :: r)).
  change (last (x :: y :: r) []) with (last (y :: r) []).
  rewrite <- app_assoc, <- app_assoc, IH by discriminate. cbn [app].
  destruct (removelast (y :: r) ++ _) eqn:E; [destruct (removelast (y :: r)); discriminate|]. rewrite join_cons. reflexivity.
Qed.
Definition line_clean (l : str) : Prop := trim_end l = l /\ Forall (fun c => c <> c_nl) l.
Lemma ends_two : forall l, ends_with [c_sp; c_sp] (l ++ [c_sp; c_sp]) = true.
Proof. intro l. apply ends_with_true. eauto. Qed.
Lemma ends_clean : forall l, line_clean l -> ends_with [c_sp; c_sp] l = false.
Proof.
  intros l [H _]. destruct (ends_with _ l) eqn:E; auto. apply ends_with_true in E. destruct E as [r ->].
  change [c_sp; c_sp] with ([c_sp] ++ [c_sp]) in H. rewrite app_assoc, trim_end_snoc_ws in H by reflexivity.
  destruct (trim_end_app (r ++ [c_sp])) as [t [Et _]]. rewrite H in Et.
  apply (f_equal (@List.length _)) in Et. rewrite !app_length in Et. cbn in Et. lia.
Qed.
Lemma filter_clean : forall L, Forall line_clean L -> [] = filter (ends_with [c_sp; c_sp]) L.
Proof. induction 1; auto. cbn [filter]. rewrite ends_clean; auto. Qed.
Lemma filter_mark : forall L, L <> [] -> Forall line_clean L ->
  List.length (filter (ends_with [c_sp; c_sp]) (mark L)) = 1.
Proof.
  intros L Hn H. unfold mark. rewrite filter_app, app_length. cbn [filter]. rewrite ends_two. cbn.
  replace (filter (ends_with [c_sp; c_sp]) (removelast L)) with (@nil str); [reflexivity|].
  rewrite (app_removelast_last [] Hn) in H. apply Forall_app in H. destruct H as [H _].
  apply filter_clean. auto.
Qed.
Lemma removelast_app2 : forall A (a b : list A), b <> [] -> removelast (a ++ b) = a ++ removelast b.
Proof. intros. apply removelast_app. auto. Qed.
Lemma count_render : forall LL : list (list str), LL <> [] ->
  Forall (fun L => L <> [] /\ Forall line_clean L) LL ->
  S (count_hard_breaks (render_text LL)) = List.length LL
  /\ ends_with [c_sp; c_sp] (last (split_on c_nl (render_text LL)) []) = false.
Proof.
  assert (NN : forall L, Forall line_clean L -> Forall (fun p => Forall (fun x => x <> c_nl) p) L).
  { intros L H. eapply Forall_impl; [|exact H]. intros a [_ K]; exact K. }
  induction LL as [|L [|L2 r] IH]; intros Hn H; [congruence| |].
  - inversion H as [|? ? [H1 H2] _]; subst. unfold render_text, count_hard_breaks. cbn [map join]. unfold render_piece.
    rewrite split_on_join; auto. split.
    + replace (filter _ (removelast L)) with (@nil str); [reflexivity|].
      rewrite (app_removelast_last [] H1) in H2. apply Forall_app in H2. destruct H2 as [H2 _].
      apply filter_clean. auto.
    + apply ends_clean. rewrite (app_removelast_last [] H1) in H2. apply Forall_app in H2. destruct H2 as [_ H2]. inversion H2; auto.
  - inversion H as [|? ? [H1 H2] H3]; subst. destruct (IH ltac:(discriminate) H3) as [I1 I2].
    assert (E : split_on c_nl (render_text (L :: L2 :: r)) = mark L ++ split_on c_nl (render_text (L2 :: r))).
    { unfold render_text. cbn [map]. rewrite join_cons. fold (render_text (L2 :: r)).
      change ([c_sp; c_sp; c_nl] ++ render_text (L2 :: r)) with ([c_sp; c_sp] ++ c_nl :: render_text (L2 :: r)).
      change (join [c_sp; c_sp; c_nl] (render_piece L2 :: map render_piece r)) with (render_text (L2 :: r)).
      change ([c_sp; c_sp; c_nl] ++ render_text (L2 :: r)) with ([c_sp; c_sp] ++ c_nl :: render_text (L2 :: r)).
      rewrite app_assoc, split_on_app_gen. f_equal. unfold render_piece. rewrite join_mark by auto.
      apply split_on_join.
      - unfold mark. destruct (removelast L); discriminate.
      - unfold mark. rewrite (app_removelast_last [] H1) in H2. apply Forall_app in H2. destruct H2 as [H2 H4].
        apply Forall_app. split; [apply NN; auto|]. constructor; auto. inversion H4 as [|? ? [_ K] _]; subst.
        apply Forall_app. split; auto. repeat constructor; discriminate. }
    split.
    + unfold count_hard_breaks in *. rewrite E, removelast_app2 by apply split_on_nonempty.
      rewrite filter_app, app_length, filter_mark by auto. cbn [List.length] in *. lia.
    + rewrite E. replace (last (mark L ++ _) []) with (last (split_on c_nl (render_text (L2 :: r))) []); auto.
      symmetry. pose proof (split_on_nonempty c_nl (render_text (L2 :: r))) as N.
      rewrite (app_removelast_last [] N) at 1. rewrite app_assoc, last_last. reflexivity.
Qed.

Theorem C08_hard_breaks_kept : forall U t p lw, ~ In c_nl p -> Forall clean_segment (segments t) ->
  count_hard_breaks (wrap_text U t p lw) = List.length (filter (ceq c_nl) t)
  /\ ends_with [c_sp; c_sp] (last (split_on c_nl (wrap_text U t p lw)) []) = false.
Proof.
  intros U t p lw Hp H. rewrite wrap_text_eq.
  assert (G : forall ss, Forall clean_segment ss -> Forall (Forall (fun c => c <> c_nl)) ss -> exists LL : list (list str),
    map (fun s => wrap_text_segment U s p lw) ss = map render_piece LL /\ List.length LL = List.length ss
    /\ Forall (fun L => L <> [] /\ Forall line_clean L) LL).
  { induction ss as [|s ss IH]; intros C N; [exists []; auto|]. inversion C; subst. inversion N; subst.
    destruct IH as (LL & E & El & F); auto.
    destruct (first_segment_lines U lw p p s) as (L & E1 & Ln & (q & n & Lp & Lq) & Lsh & Lo & Lw & Lx).
    destruct (Lx H2) as (_ & _ & Lt & LP & _).
    exists (map wl_t L :: LL). repeat split; cbn [map List.length]; auto.
    - rewrite E, wrap_text_segment_eq, E1. reflexivity.
    - constructor; auto. split; [destruct L; [congruence|discriminate]|]. apply Forall_map.
      assert (H4' : Forall (fun c => c = soft \/ c <> c_nl) s) by (eapply Forall_impl; [|exact H4]; auto).
      specialize (LP (fun c => c <> c_nl) ltac:(discriminate) H4').
      rewrite Forall_forall in *. intros x Hx. split; [symmetry; auto|].
      destruct (Lsh x Hx) as [w [_ Ew]]. specialize (LP x Hx).
      assert (wl_p x = p).
      { apply (in_map wl_p) in Hx. rewrite Lp in Hx. destruct Hx as [Hx|Hx]; [destruct Lq; congruence|]. apply repeat_spec in Hx; auto. }
      assert (K : Forall (fun c => c <> c_nl) (wl_p x ++ wl_b x)).
      { apply Forall_app. split; auto. rewrite H0. apply Forall_forall. intros c Hc ->. auto. }
      rewrite Ew in K. apply Forall_app in K. apply K. }
  destruct (G (segments t) H (split_on_forall c_nl t)) as (LL & E & El & F).
  rewrite E. change (join hard_break (map render_piece LL)) with (render_text LL).
  assert (Hn : LL <> []). { intro K. subst. cbn in El. unfold segments in El. rewrite split_on_length in El. discriminate. }
  destruct (count_render LL Hn F) as [C1 C2]. split; auto.
  unfold segments in El. rewrite split_on_length in El. lia.
Qed.
Print Assumptions C08_hard_breaks_kept.
Example C08_hard_example : count_hard_breaks (wrap_text uni_ascii (lit "a b c" ++ [c_nl] ++ lit "d e") [] 3) = 1
  /\ Forall clean_segment (segments (lit "a b c" ++ [c_nl] ++ lit "d e")).
Proof.
  split; [vm_compute; reflexivity|]. repeat constructor; try (intros r K; discriminate);
  intro K; inversion K; discriminate.
Qed.
