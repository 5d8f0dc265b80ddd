(** White space at the ends of lines: texts. *)
From Coq Require Import Bool Arith NArith Lia ZifyBool ZifyNat ZifyN String List.
From Verif Require Import Base BaseFacts OptsModel WrapModel CodeModel TableModel HeadingModel AstModel StateModel
  InlineModel SerModel SpecCode SpecWrap SpecState SpecEnd SpecTrail WrapProof CodeProof EndProof DiffProof.
Import ListNotations.

Section Text.
Variable hard : bool.
Notation neat := (neat hard).
Definition starts (t : str) : Prop := exists c r, t = c :: r /\ c <> c_nl.
Definition closed (t : str) : Prop := neat t /\ ~ dangles t.
Definition fit (t : str) : Prop := closed t /\ starts t.

Lemma dangles_tail : forall x l, dangles (x ++ l) -> l <> [] -> dangles l.
Proof. intros x l D N. exact (ends_tail (fun c => is_ws c = true /\ c <> c_nl) x l D N). Qed.
Lemma dangles_nil : ~ dangles [].
Proof. intros (x & c & E & _). destruct x; discriminate E. Qed.
Lemma hard_end_app : forall x l, hard_end l -> hard_end (x ++ l).
Proof. intros x l (y & c & -> & W). exists (x ++ y), c. rewrite app_assoc. auto. Qed.
Lemma not_dangles_app : forall x l, ~ dangles l -> (l = [] -> ~ dangles x) -> ~ dangles (x ++ l).
Proof.
  intros x l N H D. destruct l as [|c l]; [rewrite app_nil_r in D; exact (H eq_refl D)|]. apply N. apply (dangles_tail x); [exact D|discriminate].
Qed.
Lemma neat_one : forall t, one_line t -> neat t.
Proof. intros t H a b ->. exfalso. apply H. apply in_app_iff. right. left. reflexivity. Qed.
Lemma neat_nil : neat [].
Proof. apply neat_one. intros []. Qed.
Lemma neat_app : forall x y, neat x -> neat y -> starts y \/ ~ dangles x -> neat (x ++ y).
Proof.
  intros x y X Y H a b E. apply app_eq_app in E. destruct E as (l & [[-> E]|[-> E]]).
  - destruct l as [|c l].
    + cbn [app] in E. rewrite app_nil_r in *. destruct H as [(c & r & Q & W)|H]; [|left; exact H]. rewrite Q in E. injection E as <- _. contradiction.
    + injection E as <- E. apply (X a l). reflexivity.
  - destruct (Y l b E) as [Z|(Z & Q)]; [|right; split; [exact Z|apply hard_end_app; exact Q]]. left.
    apply not_dangles_app; [exact Z|]. intros ->. destruct H as [(c & r & Q & W)|H]; [|exact H]. rewrite Q in E. injection E as -> _. contradiction.
Qed.
Lemma closed_nil : closed [].
Proof. split; [exact neat_nil|exact dangles_nil]. Qed.
Lemma closed_app : forall x y, closed x -> closed y -> closed (x ++ y).
Proof.
  intros x y [X1 X2] [Y1 Y2]. split; [apply neat_app; auto|]. apply not_dangles_app; auto.
Qed.
Lemma open_app : forall x y, neat x -> fit y -> closed (x ++ y).
Proof.
  intros x y X [[Y1 Y2] Y3]. split; [apply neat_app; auto|]. apply not_dangles_app; [exact Y2|]. intros ->. destruct Y3 as (c & r & Q & _). discriminate Q.
Qed.
Lemma line_app : forall x y, one_line x -> fit y -> fit (x ++ y).
Proof.
  intros x y X Y. split; [apply open_app; [apply neat_one; exact X|exact Y]|]. destruct x as [|c x]; [apply Y|].
  exists c, (x ++ y). split; [reflexivity|]. intros ->. apply X. left. reflexivity.
Qed.
Lemma fit_app : forall x y, fit x -> closed y -> fit (x ++ y).
Proof. intros x y [X (c & r & -> & W)] Y. split; [apply closed_app; assumption|]. exists c, (r ++ y). auto. Qed.
Lemma closed_flat : forall A (f : A -> str) l, Forall (fun a => closed (f a)) l -> closed (flat_map f l).
Proof. intros A f l H. induction H as [|a l Ha H IH]; [exact closed_nil|]. cbn [flat_map]. apply closed_app; assumption. Qed.
Lemma closed_concat : forall l, Forall closed l -> closed (List.concat l).
Proof. intros l H. induction H as [|a l Ha H IH]; [exact closed_nil|]. cbn [List.concat]. apply closed_app; assumption. Qed.
Lemma nl_closed : closed [c_nl].
Proof.
  split.
  - intros a b E. left. destruct a as [|c a]; [exact dangles_nil|]. injection E as _ E. destruct a; discriminate E.
  - intros (x & c & E & _ & N). destruct x as [|y x]; [injection E as <-; contradiction|]. injection E as _ E. destruct x; discriminate E.
Qed.
Lemma nls_closed : forall l, Forall (fun c => c = c_nl) l -> closed l.
Proof. intros l H. induction H as [|c l -> H IH]; [exact closed_nil|]. apply (closed_app [c_nl] l); [exact nl_closed|exact IH]. Qed.
Lemma line_closed : forall l, one_line l -> ~ dangles l -> closed (l ++ [c_nl]).
Proof. intros l H D. apply closed_app; [split; [apply neat_one; exact H|exact D]|exact nl_closed]. Qed.
Lemma black_not : forall l, ends (fun c => is_ws c = false) l -> ~ dangles l.
Proof. intros l (x & c & -> & W) (y & d & E & W2 & _). apply app_inj_tail in E. destruct E as [_ <-]. congruence. Qed.
Lemma black_fit : forall l, one_line l -> ends (fun c => is_ws c = false) l -> fit l.
Proof.
  intros l H E. split; [split; [apply neat_one; exact H|apply black_not; exact E]|]. destruct E as (x & c & -> & _).
  destruct x as [|d x]; eexists; eexists; (split; [reflexivity|]); intros ->; apply H; left; reflexivity.
Qed.
Lemma black_line : forall l, one_line l -> ends (fun c => is_ws c = false) l -> fit (l ++ [c_nl]).
Proof. intros l H E. apply fit_app; [apply black_fit; assumption|exact nl_closed]. Qed.
Lemma one_app : forall x y, one_line x -> one_line y -> one_line (x ++ y).
Proof. intros x y X Y H. apply in_app_iff in H. destruct H as [H|H]; [exact (X H)|exact (Y H)]. Qed.
Lemma one_nil : one_line [].
Proof. intros []. Qed.
Lemma one_spaces : forall n, one_line (spaces n).
Proof. intros n I. unfold spaces in I. apply repeat_spec in I. discriminate I. Qed.
Lemma one_repc : forall c n, c <> c_nl -> one_line (repc c n).
Proof. intros c n H I. apply repeat_spec in I. congruence. Qed.
Lemma one_incl : forall x y, one_line x -> incl y x -> one_line y.
Proof. intros x y X H I. apply X, H, I. Qed.
Lemma one_sub : forall a x b, one_line (a ++ x ++ b) -> one_line x.
Proof. intros a x b H I. apply H. rewrite !in_app_iff. auto. Qed.
Lemma one_trim_end : forall x, one_line x -> one_line (trim_end x).
Proof. intros x H. destruct (trim_end_app x) as (t & E & _). rewrite E in H. intros I. apply H. apply in_app_iff. auto. Qed.
Lemma one_trim : forall x, one_line x -> one_line (trim x).
Proof. intros x H. destruct (trim_app x) as (a & b & E & _). rewrite E in H. exact (one_sub _ _ _ H). Qed.
Lemma trim_end_not : forall x, ~ dangles (trim_end x).
Proof. intro x. destruct (trim_end_last x) as [->|(a & c & -> & W)]; [exact dangles_nil|]. apply black_not. exists a, c. auto. Qed.
Lemma trim_end_closed : forall x, one_line x -> closed (trim_end x).
Proof. intros x H. split; [apply neat_one, one_trim_end; exact H|apply trim_end_not]. Qed.

(** ** Wrapping *)
Section Wrap.
Variable U : Uni.
Variables fp cp : str.
Variable lw : nat.
Hypothesis F1 : one_line fp.
Hypothesis C1 : one_line cp.
Record calm_state (s : wst) : Prop := {
  ws_result : closed (w_result s); ws_line : one_line (w_line s); ws_token : one_line (w_token s); ws_spaces : one_line (w_spaces s)
}.
Lemma add_calm : forall r l t sps f, closed r -> one_line l -> one_line t -> one_line sps ->
  let '(r', l', _) := add_token U r l t sps (u_width U fp) cp lw f in closed r' /\ one_line l'.
Proof.
  intros r l t sps f R L T S. unfold add_token. cbv zeta.
  destruct (_ =? _); [split; [exact R|repeat apply one_app; assumption]|]. destruct (_ <=? _); [split; [exact R|repeat apply one_app; assumption]|].
  split; [|repeat apply one_app; assumption]. apply closed_app; [exact R|]. apply closed_app; [apply trim_end_closed; exact L|exact nl_closed].
Qed.
Lemma flush_calm : forall s, calm_state s -> calm_state (flush_token U (u_width U fp) cp lw s).
Proof.
  intros s H. unfold flush_token. destruct (_ && _); [|exact H]. destruct H as [H1 H2 H3 H4].
  pose proof (add_calm _ _ _ _ (w_first s) H1 H2 H3 H4) as A. destruct (add_token _ _ _ _ _ _ _ _ _) as [[r l] f]. destruct A as [A1 A2].
  split; cbn; first [assumption|exact one_nil].
Qed.
Lemma push_calm : forall c bt d s, c <> c_nl -> calm_state s -> calm_state (push_char c bt d s).
Proof. intros c bt d s N [H1 H2 H3 H4]. split; cbn; try assumption. apply one_app; [exact H3|]. intros [E|[]]. congruence. Qed.
Lemma step_calm : forall s c, c <> c_nl -> calm_state s -> calm_state (wrap_step U (u_width U fp) cp lw s c).
Proof.
  intros s c N H. unfold wrap_step.
  destruct (_ && _); [destruct (w_bt s); apply push_calm; auto; apply flush_calm; exact H|].
  destruct (w_bt s); [apply push_calm; auto|].
  destruct (ceq c c_lbr); [apply push_calm; auto; destruct (_ =? _); [apply flush_calm|]; exact H|].
  destruct (_ && _); [apply push_calm; auto|]. destruct (0 <? _); [apply push_calm; auto|].
  destruct (ceq c c_sp) eqn:Q.
  - destruct H as [H1 H2 H3 H4]. split; cbn; try assumption. apply one_app; [exact H4|]. intros [E|[]]. congruence.
  - apply push_calm; auto. apply flush_calm. exact H.
Qed.
Lemma fold_calm : forall text s, one_line text -> calm_state s -> calm_state (fold_left (wrap_step U (u_width U fp) cp lw) text s).
Proof.
  induction text as [|c text IH]; intros s O H; [exact H|]. cbn [fold_left]. apply IH.
  - intro I. apply O. right. exact I.
  - apply step_calm; [|exact H]. intros ->. apply O. left. reflexivity.
Qed.
Lemma single_closed : forall text, one_line text -> closed (wrap_single_segment U text fp cp lw).
Proof.
  intros text O. unfold wrap_single_segment. cbv zeta.
  assert (H0 : calm_state (mkW [] fp true [] [] false 0)) by (split; cbn; first [exact closed_nil|exact F1|exact one_nil]).
  pose proof (fold_calm text _ O H0) as H. set (s := fold_left _ _ _) in *. clearbody s. destruct H as [H1 H2 H3 H4].
  assert (G : forall r l, closed r -> one_line l -> closed (if negb (is_nil (trim_end l)) then r ++ trim_end l else r)).
  { intros r l R L. destruct (negb _); [|exact R]. apply closed_app; [exact R|apply trim_end_closed; exact L]. }
  destruct (negb (is_nil (w_token s))); [|apply G; assumption].
  pose proof (add_calm _ _ _ _ (w_first s) H1 H2 H3 one_nil) as A. destruct (add_token _ _ _ _ _ _ _ _ _) as [[r l] f].
  destruct A. apply G; assumption.
Qed.

(** The first line begins with the first character. *)
Variable d : char.
Hypothesis D : is_ws d = false.
Definition led (x : str) : Prop := exists r, x = fp ++ d :: r.
Lemma led_app : forall x y, led x -> led (x ++ y).
Proof. intros x y (r & ->). exists (r ++ y). rewrite <- app_assoc. reflexivity. Qed.
Lemma led_trim : forall x, led x -> led (trim_end x).
Proof.
  intros x (r & ->). destruct (trim_end_head d r D) as (r' & E).
  assert (Q : trim_end (fp ++ d :: r) = fp ++ d :: r').
  { rewrite <- (trim_end_inner fp (d :: r)), E. destruct (trim_end_last (d :: r)) as [Z|(a & c & Z & W)]; [congruence|].
    rewrite E in Z. rewrite Z, app_assoc. apply trim_end_snoc_id. exact W. }
  exists r'. exact Q.
Qed.
Definition led_state (s : wst) : Prop :=
  (w_result s = [] /\ w_line s = fp /\ w_first s = true /\ exists r, w_token s = d :: r)
  \/ (w_result s = [] /\ led (w_line s)) \/ led (w_result s).
Lemma add_led : forall s sps, led_state s -> w_token s <> [] ->
  let '(r', l', _) := add_token U (w_result s) (w_line s) (w_token s) sps (u_width U fp) cp lw (w_first s) in
  (r' = [] /\ led l') \/ led r'.
Proof.
  intros s sps H N. unfold add_token. cbv zeta. destruct H as [(H1 & H2 & H3 & r & H4)|[(H1 & H2)|H]].
  - rewrite H1, H2, H3, H4, Nat.eqb_refl. left. split; [reflexivity|]. exists (r ++ sps). reflexivity.
  - rewrite H1. destruct (_ =? _); [left; split; [reflexivity|apply led_app; exact H2]|].
    destruct (_ <=? _); [left; split; [reflexivity|apply led_app; exact H2]|]. right. cbn [app]. apply led_app, led_trim. exact H2.
  - destruct (_ =? _); [right; exact H|]. destruct (_ <=? _); right; [exact H|]. apply led_app. exact H.
Qed.
Lemma flush_led : forall s, led_state s -> led_state (flush_token U (u_width U fp) cp lw s).
Proof.
  intros s H. unfold flush_token. destruct (w_token s) as [|t0 t] eqn:T; [exact H|]. cbn [is_nil negb andb]. destruct (negb (is_nil (w_spaces s))); [|exact H].
  rewrite <- T. assert (N : w_token s <> []) by (rewrite T; discriminate).
  pose proof (add_led s (w_spaces s) H N) as A. destruct (add_token _ _ _ _ _ _ _ _ _) as [[r l] f]. right. exact A.
Qed.
Lemma push_led : forall c bt n s, led_state s -> led_state (push_char c bt n s).
Proof.
  intros c bt n s [(H1 & H2 & H3 & r & H4)|[H|H]]; [left|right; left|right; right]; cbn; auto.
  repeat split; auto. exists (r ++ [c]). rewrite H4. reflexivity.
Qed.
Lemma step_led : forall s c, led_state s -> led_state (wrap_step U (u_width U fp) cp lw s c).
Proof.
  intros s c H. unfold wrap_step.
  destruct (_ && _); [destruct (w_bt s); apply push_led; auto; apply flush_led; exact H|].
  destruct (w_bt s); [apply push_led; auto|].
  destruct (ceq c c_lbr); [apply push_led; auto; destruct (_ =? _); [apply flush_led|]; exact H|].
  destruct (_ && _); [apply push_led; auto|]. destruct (0 <? _); [apply push_led; auto|].
  destruct (ceq c c_sp); [exact H|]. apply push_led, flush_led. exact H.
Qed.
Lemma single_led : forall text, led (wrap_single_segment U (d :: text) fp cp lw).
Proof.
  intros text. unfold wrap_single_segment. cbv zeta. cbn [fold_left].
  set (s0 := wrap_step U (u_width U fp) cp lw (mkW [] fp true [] [] false 0) d).
  assert (H0 : led_state s0).
  { left. unfold s0, wrap_step, flush_token, push_char. cbn [w_depth w_bt w_token w_spaces w_result w_line w_first is_nil negb andb Nat.eqb].
    assert (Sp : ceq d c_sp = false) by (apply ceq_false; intros ->; discriminate D). rewrite Sp.
    repeat match goal with |- context [if ?b then _ else _] => destruct b end; cbn; repeat split; exists []; reflexivity. }
  assert (H : led_state (fold_left (wrap_step U (u_width U fp) cp lw) text s0)).
  { clearbody s0. revert s0 H0. induction text as [|c text IH]; intros s0 H0; [exact H0|]. cbn [fold_left]. apply IH, step_led. exact H0. }
  set (s := fold_left _ _ _) in *. clearbody s.
  assert (G : forall r l, (r = [] /\ led l) \/ led r -> led (if negb (is_nil (trim_end l)) then r ++ trim_end l else r)).
  { intros r l [(-> & L)|R]; [|destruct (negb _); [apply led_app|]; exact R]. apply led_trim in L. destruct L as (x & E). rewrite E. cbn [app].
    destruct (is_nil (fp ++ d :: x)) eqn:Z; [destruct fp; discriminate Z|]. cbn [negb]. exists x. reflexivity. }
  destruct (w_token s) as [|t0 t] eqn:T.
  - cbn [is_nil negb]. apply G. destruct H as [(_ & _ & _ & r & Q)|H]; [congruence|exact H].
  - cbn [is_nil negb]. rewrite <- T. assert (N : w_token s <> []) by (rewrite T; discriminate).
    pose proof (add_led s [] H N) as A. destruct (add_token _ _ _ _ _ _ _ _ _) as [[r l] f]. apply G. exact A.
Qed.
End Wrap.

Section Segments.
Variable U : Uni.
Variable lw : nat.
(** Begins with the prefix and something visible. *)
Definition shown (fp x : str) : Prop := closed x /\ exists d r, x = fp ++ d :: r /\ is_ws d = false.
Lemma shown_fit : forall fp x, one_line fp -> shown fp x -> fit x.
Proof.
  intros fp x F (C & d & r & E & W). split; [exact C|]. destruct fp as [|c fp]; rewrite E.
  - exists d, r. split; [reflexivity|]. intros ->. discriminate W.
  - exists c, (fp ++ d :: r). split; [reflexivity|]. intros ->. apply F. left. reflexivity.
Qed.
Lemma single_shown : forall fp cp d text, one_line fp -> one_line cp -> one_line (d :: text) -> is_ws d = false ->
  shown fp (wrap_single_segment U (d :: text) fp cp lw).
Proof.
  intros fp cp d text F C O W. split; [apply single_closed; assumption|]. destruct (single_led U fp cp lw F d W text) as (r & E). eauto.
Qed.
Lemma trim_shown : forall l, ~ blank l -> exists d r, trim l = d :: r /\ is_ws d = false.
Proof.
  intros l N. unfold trim. assert (Z : exists d r, trim_start l = d :: r /\ is_ws d = false).
  { induction l as [|c l IH]; [exfalso; apply N; constructor|]. unfold trim_start in *. cbn [drop_while]. destruct (is_ws c) eqn:W; [|eauto].
    apply IH. intro Bl. apply N. constructor; assumption. }
  destruct Z as (d & r & E & W). rewrite E. destruct (trim_end_head d r W) as (r' & Q). eauto.
Qed.
Lemma merge_shown : forall rest m d r, m = d :: r -> one_line m -> Forall one_line rest -> exists r', merge_rest m rest = d :: r' /\ one_line (merge_rest m rest).
Proof.
  induction rest as [|l rest IH]; intros m d r E O H; cbn [merge_rest]; [eauto|]. inversion H as [|? ? Hl Hr]; subst.
  apply (IH _ d (r ++ [c_sp] ++ trim l)); [reflexivity| |exact Hr]. repeat apply one_app; [exact O|intros [Z|[]]; discriminate Z|apply one_trim; exact Hl].
Qed.
Lemma first_loop_shown : forall fp cp, one_line fp -> one_line cp -> forall ls result first,
  Forall (fun l => ~ blank l) ls -> Forall one_line ls -> ls <> [] ->
  (first = true /\ result = []) \/ (first = false /\ shown fp result) ->
  shown fp (first_segment_loop U result first ls fp cp lw).
Proof.
  intros fp cp F C ls. assert (P : forall ls result first, Forall (fun l => ~ blank l) ls -> Forall one_line ls ->
    (first = true /\ result = [] /\ ls <> []) \/ (first = false /\ shown fp result) -> shown fp (first_segment_loop U result first ls fp cp lw)).
  { clear ls. induction ls as [|l rest IH]; intros result first H O Q; cbn [first_segment_loop]; cbv zeta.
    - destruct Q as [(_ & _ & N)|(_ & Q)]; [congruence|exact Q].
    - inversion H as [|? ? Hl Hr]; subst. inversion O as [|? ? Ol Or]; subst. destruct (trim_shown l Hl) as (d & r & E & W).
      assert (Cl : closed (trim l)).
      { split; [apply neat_one, one_trim; exact Ol|]. unfold trim. apply trim_end_not. }
      assert (Tf : fit (trim l)).
      { split; [exact Cl|]. exists d, r. split; [exact E|]. intros ->. discriminate W. }
      assert (Pn : forall x, shown fp result -> closed x -> shown fp (push_nl result ++ x)).
      { intros x (R & d0 & r0 & R2 & R3) X. unfold push_nl. assert (Z : is_nil result = false) by (rewrite R2; destruct fp; reflexivity). rewrite Z. cbn [negb].
        split; [apply closed_app; [apply closed_app; [exact R|exact nl_closed]|exact X]|]. exists d0, (r0 ++ c_nl :: x). split; [|exact R3].
        rewrite R2. rewrite <- !app_assoc. reflexivity. }
      destruct (_ <=? _).
      + apply IH; [exact Hr|exact Or|]. right. split; [reflexivity|]. destruct Q as [(-> & -> & _)|(-> & Q)].
        * cbn [push_nl is_nil negb app]. split; [apply open_app; [apply neat_one; exact F|exact Tf]|]. exists d, r. rewrite E. auto.
        * apply Pn; [exact Q|]. apply open_app; [apply neat_one; exact C|exact Tf].
      + destruct (merge_shown rest (trim l) d r E (one_trim _ Ol) Or) as (r' & M1 & M2). rewrite M1 in M2. rewrite M1. destruct Q as [(-> & -> & _)|(-> & Q)].
        * cbn [push_nl is_nil negb app]. apply single_shown; assumption.
        * apply Pn; [exact Q|]. apply single_shown; assumption. }
  intros result first H O N Q. apply P; [exact H|exact O|]. destruct Q as [[-> ->]|Q]; [left; auto|right; exact Q].
Qed.
Lemma split_one : forall c s, one_line s -> Forall one_line (split_on c s).
Proof.
  intros c s O. assert (G : Forall (Forall (fun x => x <> c_nl)) (split_on c s)).
  { apply Forall_split. apply Forall_forall. intros x I ->. exact (O I). }
  eapply Forall_impl; [|exact G]. intros l H I. rewrite Forall_forall in H. exact (H _ I eq_refl).
Qed.
Lemma segment_shown : forall fp cp s, one_line fp -> one_line cp -> one_line s -> edged s -> Forall (fun l => ~ blank l) (soft_lines s) ->
  shown fp (wrap_text_first_line_segment U s fp cp lw) /\ ends dark (wrap_text_first_line_segment U s fp cp lw).
Proof.
  intros fp cp s F C O [(c & r & E & Dc) L] H. split; [|apply first_segment_ends; exact L].
  assert (Sp := split_one WrapModel.c_nul s O). unfold wrap_text_first_line_segment. unfold soft_lines in H. change soft with WrapModel.c_nul in H.
  destruct (split_on WrapModel.c_nul s) as [|a [|b ls]] eqn:Q.
  - exfalso. eapply split_on_nonempty; eauto.
  - rewrite E in *. apply single_shown; try assumption. apply Dc.
  - apply first_loop_shown; try assumption; [discriminate|left; auto].
Qed.

Lemma hard_closed : forall x y, hard = true -> closed x -> ends dark x -> closed y -> closed (x ++ hard_break ++ y).
Proof.
  intros x y Hd [X1 X2] (x' & c & -> & W) Y. replace ((x' ++ [c]) ++ hard_break ++ y) with (((x' ++ [c; c_sp; c_sp]) ++ [c_nl]) ++ y)
    by (unfold hard_break; rewrite <- !app_assoc; reflexivity).
  apply closed_app; [|exact Y]. replace (x' ++ [c; c_sp; c_sp]) with ((x' ++ [c]) ++ [c_sp; c_sp]) by (rewrite <- app_assoc; reflexivity).
  split.
  - intros a b E. assert (E2 : a ++ c_nl :: b = ((x' ++ [c]) ++ [c_sp; c_sp]) ++ [c_nl]) by congruence. clear E.
    destruct b as [|e b] using rev_ind.
    + apply app_inj_tail in E2. destruct E2 as [-> _]. right. split; [exact Hd|]. exists x', c. split; [rewrite <- app_assoc; reflexivity|apply W].
    + clear IHb. change (c_nl :: b ++ [e]) with ((c_nl :: b) ++ [e]) in E2. rewrite app_assoc in E2. apply app_inj_tail in E2. destruct E2 as [E2 _].
      assert (N : neat ((x' ++ [c]) ++ [c_sp; c_sp])).
      { apply neat_app; [exact X1|apply neat_one; intros [Z|[Z|[]]]; discriminate Z|]. left. exists c_sp, [c_sp]. split; [reflexivity|discriminate]. }
      apply (N a b). symmetry. exact E2.
  - intros (z & e & E & W1 & W2). apply app_inj_tail in E. destruct E as [_ <-]. contradiction.
Qed.
Lemma join_hard : forall ls x, (ls <> [] -> hard = true) -> closed x -> ends dark x -> Forall (fun y => closed y /\ ends dark y) ls ->
  closed (join hard_break (x :: ls)).
Proof.
  induction ls as [|y ls IH]; intros x Hd X E H; [exact X|]. inversion H as [|? ? [Y1 Y2] Hl]; subst. rewrite join_cons.
  apply hard_closed; [apply Hd; discriminate|exact X|exact E|]. apply IH; try assumption. intros _. apply Hd. discriminate.
Qed.
Lemma segments_nonempty : forall t, exists s r, segments t = s :: r.
Proof. intro t. unfold segments. destruct (split_on c_nl t) eqn:E; [exfalso; eapply split_on_nonempty; eauto|eauto]. Qed.
Lemma segments_one : forall t, Forall one_line (segments t).
Proof.
  intro t. unfold segments. induction t as [|c t IH]; cbn [split_on]; [repeat constructor; exact one_nil|]. destruct (ceq c c_nl) eqn:Q.
  - constructor; [exact one_nil|exact IH].
  - destruct (split_on c_nl t) as [|a ls]; [repeat constructor; intros [Z|[]]; apply ceq_false in Q; congruence|].
    inversion IH; subst. constructor; [|assumption]. intros [Z|I]; [apply ceq_false in Q; congruence|contradiction].
Qed.
Lemma segments_single : forall t s r, one_line t -> segments t = s :: r -> r = [].
Proof.
  intros t s r O E. assert (Z : split_on c_nl t = [t]).
  { clear - O. induction t as [|c t IH]; [reflexivity|]. cbn [split_on]. assert (Q : ceq c c_nl = false) by (apply ceq_false; intros ->; apply O; left; reflexivity).
    rewrite Q, IH; [reflexivity|]. intro I. apply O. right. exact I. }
  unfold segments in E. rewrite Z in E. injection E as _ <-. reflexivity.
Qed.
Lemma first_line_shown : forall t fp cp, one_line fp -> one_line cp -> full_text t -> (hard = false -> one_line t) ->
  shown fp (wrap_text_first_line U t fp cp lw) /\ ends dark (wrap_text_first_line U t fp cp lw).
Proof.
  intros t fp cp F C H Hd. destruct (segments_nonempty t) as (s & r & E). rewrite (wrap_text_first_line_eq U lw t fp cp s r E).
  pose proof (segments_one t) as O. unfold full_text in H. rewrite E in H, O. inversion H as [|? ? [Hs1 Hs2] Hr]; subst. inversion O as [|? ? Os Or]; subst.
  destruct (segment_shown fp cp s F C Os Hs1 Hs2) as ((A1 & d & r0 & A2 & A3) & A4).
  assert (G : Forall (fun y => closed y /\ ends dark y) (map (fun s => cp ++ wrap_text_first_line_segment U s [] cp lw) r)).
  { apply Forall_map. rewrite Forall_forall in *. intros y Iy. destruct (Hr y Iy) as [Y1 Y2].
    destruct (segment_shown [] cp y one_nil C (Or y Iy) Y1 Y2) as (Y3 & Y4). split; [|apply ends_app; exact Y4].
    apply open_app; [apply neat_one; exact C|]. exact (shown_fit [] _ one_nil Y3). }
  assert (N : r <> [] -> hard = true).
  { intro N. destruct hard; [reflexivity|]. exfalso. apply N. exact (segments_single t s r (Hd eq_refl) E). }
  assert (N' : map (fun s => cp ++ wrap_text_first_line_segment U s [] cp lw) r <> [] -> hard = true).
  { intro M. apply N. intros ->. apply M. reflexivity. }
  split.
  - split; [apply join_hard; assumption|]. rewrite A2. destruct r as [|y r]; [cbn [map join]; eauto|]. cbn [map]. rewrite join_cons.
    eexists d, _. split; [rewrite <- app_assoc; reflexivity|exact A3].
  - destruct r as [|y r] using rev_ind; [exact A4|]. clear IHr. rewrite map_app. cbn [map]. rewrite app_comm_cons.
    apply Forall_app in G || idtac. rewrite map_app in G. apply Forall_app in G. destruct G as [_ G]. inversion G as [|? ? [_ G2] _]; subst.
    rewrite join_app2; [|discriminate|discriminate]. do 2 apply ends_app. exact G2.
Qed.
Lemma wrapped_shown : forall t p, one_line p -> full_text t -> (hard = false -> one_line t) ->
  shown p (wrap_text U t p lw) /\ ends dark (wrap_text U t p lw).
Proof.
  intros t p P H Hd. destruct (segments_nonempty t) as (s & r & E). rewrite wrap_text_eq, E.
  pose proof (segments_one t) as O. unfold full_text in H. rewrite E in H, O.
  assert (G : forall y, In y (s :: r) -> shown p (wrap_text_segment U y p lw) /\ ends dark (wrap_text_segment U y p lw)).
  { intros y I. rewrite Forall_forall in H, O. destruct (H y I) as [Y1 Y2]. rewrite wrap_text_segment_eq. apply segment_shown; auto. }
  assert (N : r <> [] -> hard = true).
  { intro N. destruct hard; [reflexivity|]. exfalso. apply N. exact (segments_single t s r (Hd eq_refl) E). }
  assert (N' : map (fun s => wrap_text_segment U s p lw) r <> [] -> hard = true).
  { intro M. apply N. intros ->. apply M. reflexivity. }
  destruct (G s (or_introl eq_refl)) as ((A1 & d & r0 & A2 & A3) & A4).
  assert (Gr : Forall (fun y => closed y /\ ends dark y) (map (fun s => wrap_text_segment U s p lw) r)).
  { apply Forall_map, Forall_forall. intros y I. destruct (G y (or_intror I)) as ((Y1 & _) & Y2). auto. }
  cbn [map]. split.
  - split; [apply join_hard; assumption|]. rewrite A2. destruct r as [|y r]; [cbn [map join]; eauto|]. cbn [map]. rewrite join_cons.
    eexists d, _. split; [rewrite <- app_assoc; reflexivity|exact A3].
  - destruct r as [|y r] using rev_ind; [exact A4|]. clear IHr. rewrite map_app in *. cbn [map]. rewrite app_comm_cons.
    apply Forall_app in Gr. destruct Gr as [_ Gr]. inversion Gr as [|? ? [_ G2] _]; subst.
    rewrite join_app2; [|discriminate|discriminate]. do 2 apply ends_app. exact G2.
Qed.
Lemma full_trim : forall t, full_text t -> trim t = t.
Proof.
  intros t H. destruct (segments_nonempty t) as (s & r & E). pose proof (join_split_on c_nl t) as J. unfold full_text in H. fold (segments t) in J. rewrite E in H, J.
  assert (L : ends dark t /\ exists c z, t = c :: z /\ dark c).
  { rewrite <- J. clear J E. apply Forall_cons_iff in H. destruct H as [[[(c & s' & -> & W) L0] _] Hr]. split.
    - destruct r as [|y r _] using rev_ind; [exact L0|]. rewrite app_comm_cons, join_app2; [|discriminate|discriminate].
      do 2 apply ends_app. apply Forall_app in Hr. destruct Hr as [_ Hr]. inversion Hr as [|? ? [[_ Q] _] _]; subst. exact Q.
    - exists c. destruct r; [eexists; split; [reflexivity|exact W]|]. rewrite join_cons. eexists. split; [reflexivity|exact W]. }
  destruct L as [L (c & z & Et & W)]. unfold trim.
  assert (T : trim_start t = t) by (rewrite Et; unfold trim_start; cbn [drop_while]; rewrite (dark_ws c W); reflexivity). rewrite T.
  apply (ends_trim_end dark); [exact dark_ws|exact L].
Qed.
End Segments.
End Text.
