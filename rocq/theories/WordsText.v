(** Texts up to the amount of white space, and what wrapping does to them. *)
From Coq Require Import Bool Arith NArith Lia ZifyBool ZifyNat ZifyN Btauto String List.
From Verif Require Import Base BaseFacts OptsModel WrapModel SpecWrap WrapProof.
Import ListNotations.

Section Gaps.
(** Where there are quotes, their marks count as white space. *)
Variable quotes : bool.
Definition gap (c : char) : bool := is_ws c || (quotes && N.eqb c 62).
Lemma ws_gap : forall c, is_ws c = true -> gap c = true.
Proof. intros c H. unfold gap. rewrite H. reflexivity. Qed.

(** White space as single spaces; [prev]: white space has just been seen. *)
Fixpoint squash (prev : bool) (s : str) : str :=
  match s with
  | [] => []
  | c :: r => if gap c then (if prev then squash true r else c_sp :: squash true r) else c :: squash false r
  end.
Fixpoint ends_ws (prev : bool) (s : str) : bool :=
  match s with [] => prev | c :: r => ends_ws (gap c) r end.
Definition alike (x y : str) : Prop := squash false x = squash false y.
Definition white (s : str) : bool := forallb gap s.

Lemma squash_app : forall a b q, squash q (a ++ b) = squash q a ++ squash (ends_ws q a) b.
Proof.
  induction a as [|c a IH]; intros b q; [reflexivity|]. cbn [app squash ends_ws]. destruct (gap c); [destruct q|]; rewrite IH; reflexivity.
Qed.
Lemma ends_ws_app : forall a b q, ends_ws q (a ++ b) = ends_ws (ends_ws q a) b.
Proof. induction a as [|c a IH]; intros b q; [reflexivity|]. cbn [app ends_ws]. apply IH. Qed.
Lemma ends_squash : forall s q, ends_ws q (squash q s) = ends_ws q s.
Proof.
  induction s as [|c s IH]; intro q; [reflexivity|]. cbn [squash ends_ws]. destruct (gap c) eqn:W.
  - destruct q; [apply IH|]. cbn [ends_ws]. change (gap c_sp) with (true). apply IH.
  - cbn [ends_ws]. rewrite W. apply IH.
Qed.
Lemma squash_true : forall s, squash true s = match squash false s with c :: r => if gap c then r else c :: r | [] => [] end.
Proof. intros [|c s]; [reflexivity|]. cbn [squash]. destruct (gap c) eqn:W; [reflexivity|]. rewrite W. reflexivity. Qed.
Lemma alike_any : forall x y q, alike x y -> squash q x = squash q y.
Proof. intros x y [|] H; [|exact H]. rewrite !squash_true, H. reflexivity. Qed.
Lemma alike_ends : forall x y q, alike x y -> ends_ws q x = ends_ws q y.
Proof. intros x y q H. rewrite <- (ends_squash x), <- (ends_squash y), (alike_any x y q H). reflexivity. Qed.
Lemma alike_refl : forall x, alike x x.
Proof. reflexivity. Qed.
Lemma alike_sym : forall x y, alike x y -> alike y x.
Proof. intros x y H. symmetry. exact H. Qed.
Lemma alike_trans : forall x y z, alike x y -> alike y z -> alike x z.
Proof. intros x y z H G. unfold alike in *. congruence. Qed.
Lemma alike_app : forall a b x y, alike a b -> alike x y -> alike (a ++ x) (b ++ y).
Proof.
  intros a b x y A X. unfold alike. rewrite !squash_app, A, (alike_ends a b false A), (alike_any x y _ X). reflexivity.
Qed.
Lemma squash_white_true : forall v, white v = true -> squash true v = [].
Proof. induction v as [|c v IH]; intro W; [reflexivity|]. cbn in W |- *. apply andb_prop in W. destruct W as [-> W]. apply IH. exact W. Qed.
Lemma ends_white : forall v q, white v = true -> ends_ws q v = q || negb (is_nil v).
Proof.
  induction v as [|c v IH]; intros q W; [cbn; btauto|]. cbn in W |- *. apply andb_prop in W. destruct W as [-> W]. rewrite IH by exact W.
  cbn. btauto.
Qed.
Lemma squash_white : forall v, white v = true -> v <> [] -> squash false v = [c_sp].
Proof. intros [|c v] W N; [contradiction|]. cbn in W |- *. apply andb_prop in W. destruct W as [-> W]. rewrite squash_white_true by exact W. reflexivity. Qed.
(** Any white space will do for any other. *)
Lemma alike_white : forall u v, white u = true -> white v = true -> u <> [] -> v <> [] -> alike u v.
Proof. intros u v U V Nu Nv. unfold alike. rewrite !squash_white by assumption. reflexivity. Qed.
(** After white space, more of it changes nothing. *)
Lemma alike_more : forall a v, ends_ws false a = true -> white v = true -> alike (a ++ v) a.
Proof. intros a v A V. unfold alike. rewrite squash_app, A, squash_white_true, app_nil_r by exact V. reflexivity. Qed.
Lemma alike_white_iff : forall x y, alike x y -> white x = white y.
Proof.
  assert (H : forall x q, white x = white (squash q x)).
  { induction x as [|c x IH]; intro q; [reflexivity|]. cbn [squash]. unfold white in *. cbn [forallb]. destruct (gap c) eqn:W; cbn [andb].
    - destruct q; [apply IH|]. cbn [forallb]. change (gap c_sp) with (true). apply IH.
    - cbn [forallb]. rewrite W. reflexivity. }
  intros x y A. rewrite (H x false), (H y false), A. reflexivity.
Qed.
Definition empty (s : str) : bool := forallb is_ws s.
Lemma empty_white : forall v, empty v = true -> white v = true.
Proof. intros v H. unfold white, empty in *. rewrite forallb_forall in *. intros c I. apply ws_gap. apply H. exact I. Qed.
Lemma forall_white : forall v, Forall (fun c => is_ws c = true) v -> white v = true.
Proof. intros v F. apply empty_white. apply forallb_forall. rewrite Forall_forall in F. exact F. Qed.
Lemma empty_trim_end : forall s, empty s = is_nil (trim_end s).
Proof.
  intro s. destruct (trim_end_app s) as (v & E & F). assert (W : empty v = true) by (apply forallb_forall; rewrite Forall_forall in F; exact F).
  rewrite E at 1. unfold empty in *. rewrite forallb_app, W, andb_true_r.
  destruct (trim_end_last s) as [->|(a & c & -> & D)]; [reflexivity|]. rewrite forallb_app. cbn [forallb]. rewrite D, andb_false_r. destruct a; reflexivity.
Qed.
Lemma empty_app : forall a b, empty (a ++ b) = empty a && empty b.
Proof. intros a b. apply forallb_app. Qed.
Lemma white_app : forall a b, white a = true -> white b = true -> white (a ++ b) = true.
Proof. intros a b A Bb. unfold white in *. rewrite forallb_app, A, Bb. reflexivity. Qed.
(** Before a line feed, white space at the end of a text does not matter. *)
Lemma trim_line : forall x, alike (trim_end x ++ [c_nl]) (x ++ [c_nl]).
Proof.
  intro x. destruct (trim_end_app x) as (v & E & F). rewrite E at 2. rewrite <- app_assoc. apply alike_app; [apply alike_refl|].
  apply alike_white; [reflexivity| |discriminate|destruct v; discriminate]. apply white_app; [apply forall_white; exact F|reflexivity].
Qed.
(** Words, with quote marks read as white space. *)
Definition seen (c : char) : char := if quotes && N.eqb c 62 then c_sp else c.
Lemma seen_ws : forall c, is_ws (seen c) = gap c.
Proof. intro c. unfold seen, gap. destruct (quotes && N.eqb c 62); [rewrite orb_true_r|rewrite orb_false_r]; reflexivity. Qed.
Lemma split_squash : forall s q cur, (q = true -> cur = []) -> split_ws_aux cur (map seen (squash q s)) = split_ws_aux cur (map seen s).
Proof.
  induction s as [|c s IH]; intros q cur Q; [reflexivity|]. cbn [squash map split_ws_aux]. rewrite seen_ws. destruct (gap c) eqn:W.
  - destruct q.
    + rewrite (Q eq_refl). cbn [is_nil]. apply IH. reflexivity.
    + cbn [map split_ws_aux]. rewrite seen_ws. change (gap c_sp) with true. cbn [is_nil]. rewrite !IH by reflexivity. reflexivity.
  - cbn [map split_ws_aux]. rewrite seen_ws, W. apply IH. discriminate.
Qed.
Lemma alike_words : forall x y, alike x y -> split_whitespace (map seen x) = split_whitespace (map seen y).
Proof. intros x y H. unfold split_whitespace. rewrite <- (split_squash x false []), <- (split_squash y false []), H by discriminate. reflexivity. Qed.
(** A break after white space. *)
Lemma alike_break : forall line prefix, ends_ws false line = true -> white prefix = true -> alike (trim_end line ++ c_nl :: prefix) line.
Proof.
  intros line prefix E P. change (c_nl :: prefix) with ([c_nl] ++ prefix). rewrite app_assoc.
  eapply alike_trans; [apply alike_more; [rewrite ends_ws_app; reflexivity|exact P]|]. eapply alike_trans; [apply trim_line|]. apply alike_more; [exact E|reflexivity].
Qed.

(** ** Wrapping *)
Section Wrapping.
Variable U : Uni.
Variable lw : nat.
Variable cp : str.
Hypothesis cp_white : white cp = true.
Variable fp : str.

Definition total (s : wst) : str := w_result s ++ w_line s ++ w_token s ++ w_spaces s.
Record going (s : wst) (k : str) (c : char) : Prop := mkGoing {
  g_total : alike (total s) (k ++ [c]);
  g_line : (w_line s = fp /\ w_first s = true) \/ ends_ws false (w_line s) = true;
  g_token : w_token s <> [];
  g_spaces : Forall (fun x => x = c_sp) (w_spaces s);
  g_unit : w_bt s = true \/ 0 < w_depth s -> w_spaces s = [];
  g_last : (w_spaces s = [] /\ exists t, w_token s = t ++ [c]) \/ c = c_sp
}.
Lemma spaces_white : forall s, Forall (fun x => x = c_sp) s -> white s = true.
Proof. intros s F. apply forallb_forall. rewrite Forall_forall in F. intros x H. rewrite (F x H). reflexivity. Qed.
Lemma add_token_alike : forall r l t sps first r' l' f', (l = fp /\ first = true) \/ ends_ws false l = true ->
  add_token U r l t sps (u_width U fp) cp lw first = (r', l', f') ->
  alike (r' ++ l') (r ++ l ++ t ++ sps) /\ exists l0, l' = l0 ++ t ++ sps.
Proof.
  intros r l t sps first r' l' f' L E. unfold add_token in E. destruct (u_width U l =? _) eqn:W1.
  - injection E as <- <- <-. split; [apply alike_refl|]. exists l. reflexivity.
  - destruct (_ <=? lw) eqn:W2.
    + injection E as <- <- <-. split; [apply alike_refl|]. exists l. reflexivity.
    + injection E as <- <- <-. split; [|exists cp; reflexivity]. destruct L as [[-> ->]|L]; [rewrite Nat.eqb_refl in W1; discriminate W1|].
      rewrite <- !app_assoc. apply alike_app; [apply alike_refl|]. cbn [app]. rewrite app_comm_cons, app_assoc. apply alike_app; [|apply alike_refl].
      apply alike_break; assumption.
Qed.
Lemma flush_going : forall s k c, going s k c -> let s' := flush_token U (u_width U fp) cp lw s in
  alike (total s') (k ++ [c]) /\ ((w_line s' = fp /\ w_first s' = true) \/ ends_ws false (w_line s') = true) /\ w_spaces s' = []
  /\ w_bt s' = w_bt s /\ w_depth s' = w_depth s.
Proof.
  intros s k c [G1 G2 G3 G4 G5 G6]. cbv zeta. unfold flush_token. destruct (w_token s) as [|x t] eqn:T; [contradiction|]. cbn [is_nil negb andb].
  destruct (w_spaces s) as [|y sp] eqn:Sp.
  - cbn [is_nil negb]. rewrite Sp. auto.
  - cbn [is_nil negb]. destruct (add_token _ _ _ _ _ _ _ _ _) as [[r l] f] eqn:A. cbn [w_line w_first w_spaces w_bt w_depth].
    destruct (add_token_alike _ _ _ _ _ _ _ _ G2 A) as [H (l0 & L)]. split; [|split; [|auto]].
    + unfold total in *. cbn [w_result w_line w_token w_spaces]. rewrite !app_nil_r. eapply alike_trans; [exact H|]. rewrite T, Sp in G1. exact G1.
    + right. rewrite L, !ends_ws_app. rewrite (ends_white (y :: sp)) by (apply spaces_white; exact G4). cbn. btauto.
Qed.
Lemma push_going : forall s k c d bt n, alike (total s) (k ++ [c]) -> (w_line s = fp /\ w_first s = true) \/ ends_ws false (w_line s) = true ->
  w_spaces s = [] -> going (push_char d bt n s) (k ++ [c]) d.
Proof.
  intros s k c d bt n T L Sp. unfold push_char. constructor; cbn [w_line w_first w_token w_spaces w_bt w_depth]; auto.
  - unfold total in *. cbn [w_result w_line w_token w_spaces]. rewrite Sp in *. rewrite app_nil_r in *. rewrite (app_assoc (w_line s)), (app_assoc (w_result s)). 
    apply alike_app; [exact T|apply alike_refl].
  - destruct (w_token s); discriminate.
  - rewrite Sp. constructor.
  - left. split; [exact Sp|]. eexists; reflexivity.
Qed.
Lemma step_going : forall s k c d, going s k c -> going (wrap_step U (u_width U fp) cp lw s d) (k ++ [c]) d.
Proof.
  intros s k c d G. pose proof (flush_going s k c G) as (F1 & F2 & F3 & F4 & F5). destruct G as [G1 G2 G3 G4 G5 G6]. unfold wrap_step.
  destruct (ceq d c_bt && (w_depth s =? 0)).
  - destruct (w_bt s) eqn:Bt; [apply push_going; auto|apply push_going; assumption].
  - destruct (w_bt s) eqn:Bt; [apply push_going; auto|]. destruct (ceq d c_lbr).
    + destruct (w_depth s =? 0) eqn:D; apply push_going; auto. apply G5. right. lia.
    + destruct (ceq d c_rbr && (0 <? w_depth s)) eqn:R; [apply push_going; auto; apply G5; right; lia|].
      destruct (0 <? w_depth s) eqn:D; [apply push_going; auto; apply G5; right; lia|].
      destruct (ceq_spec d c_sp) as [->|]; [|apply push_going; assumption].
      constructor; cbn [w_line w_first w_token w_spaces w_bt w_depth]; auto.
      * unfold total in *. cbn [w_result w_line w_token w_spaces]. rewrite (app_assoc (w_token s)), (app_assoc (w_line s)), (app_assoc (w_result s)). apply alike_app; [exact G1|apply alike_refl].
      * apply Forall_app. split; [exact G4|repeat constructor].
      * intros [X|X]; [congruence|lia].
Qed.
Lemma steps_going : forall r s k c, going s k c -> exists k' c', k ++ c :: r = k' ++ [c'] /\ going (fold_left (wrap_step U (u_width U fp) cp lw) r s) k' c'.
Proof.
  induction r as [|d r IH]; intros s k c G; cbn [fold_left]; [exists k, c; auto|].
  destruct (IH _ _ _ (step_going s k c d G)) as (k' & c' & E & G'). exists k', c'. split; [|exact G']. rewrite <- E, <- app_assoc. reflexivity.
Qed.
Lemma single_alike : forall c r, is_ws c = false -> trim_end (c :: r) = c :: r -> alike (wrap_single_segment U (c :: r) fp cp lw) (fp ++ c :: r).
Proof.
  intros c r D T. unfold wrap_single_segment. cbn [fold_left].
  assert (G : going (wrap_step U (u_width U fp) cp lw (mkW [] fp true [] [] false 0) c) fp c).
  { assert (Z : forall bt n, going (push_char c bt n (mkW [] fp true [] [] false 0)) fp c).
    { intros bt n. constructor; cbn; auto; [apply alike_refl|discriminate|]. left. split; [reflexivity|]. exists []. reflexivity. }
    unfold wrap_step. cbn [w_depth w_bt flush_token w_token is_nil negb andb Nat.eqb Nat.ltb Nat.leb].
    destruct (ceq c c_bt && true); [apply Z|]. destruct (ceq c c_lbr); [apply Z|]. rewrite andb_false_r.
    destruct (ceq_spec c c_sp) as [->|]; [discriminate D|apply Z]. }
  destruct (steps_going r _ _ _ G) as (k & d & E & [G1 G2 G3 G4 G5 G6]).   assert (Dd : is_ws d = false). { destruct (trim_end_last (c :: r)) as [X|(a & x & X & Dx)]; rewrite T in X; [discriminate X|]. rewrite X, app_assoc in E. apply app_inj_tail in E. destruct E as [_ <-]. exact Dx. }
  set (s := fold_left _ _ _) in *. clearbody s. destruct G6 as [[Sp (t & Tk)]| ->]; [|discriminate Dd].
  destruct (w_token s) as [|x y] eqn:Tn; [contradiction|]. cbn [is_nil negb].
  destruct (add_token _ _ _ _ _ _ _ _ _) as [[r' l'] f'] eqn:A. destruct (add_token_alike _ _ _ _ _ _ _ _ G2 A) as [H (l0 & L)].
  rewrite Tk, app_nil_r in L. rewrite app_assoc in L. rewrite L in H |- *. rewrite trim_end_snoc_id by exact Dd.
  destruct ((l0 ++ t) ++ [d]) eqn:N; [destruct (l0 ++ t); discriminate N|]. cbn [is_nil negb].
  eapply alike_trans; [exact H|]. rewrite E. unfold total in G1. rewrite Tn, Sp in G1. exact G1.
Qed.

End Wrapping.
(** A piece of a paragraph: source lines without white space around them. *)
Lemma trim_id : forall l, trimmed l -> exists c r, l = c :: r /\ is_ws c = false /\ trim_end l = l.
Proof.
  intros l [T N]. destruct (trim_start_app l) as (v & E & _). destruct (trim_end_app (trim_start l)) as (u & F & _). change (trim_end (trim_start l)) with (trim l) in F.
  rewrite T in F. assert (v = [] /\ u = []) as [-> ->].
  { rewrite F in E. apply (f_equal (@List.length _)) in E. rewrite !app_length in E. split; [destruct v|destruct u]; cbn in E; auto; lia. }
  rewrite app_nil_r in F. destruct l as [|c r]; [contradiction|]. exists c, r. split; [reflexivity|]. split.
  - destruct (is_ws c) eqn:W; [|reflexivity]. exfalso. unfold trim_start in F. cbn [drop_while] in F. rewrite W in F.
    destruct (trim_start_app r) as (v & E' & _). unfold trim_start in E'. rewrite F in E'. apply (f_equal (@List.length _)) in E'. rewrite app_length in E'. cbn in E'. lia.
  - unfold trim in T. rewrite F in T. exact T.
Qed.
Section Pieces.
Variable U : Uni.
Variable lw : nat.
Variable cp : str.
Hypothesis cp_white : white cp = true.
Lemma single_trimmed : forall fp l, trimmed l -> alike (wrap_single_segment U l fp cp lw) (fp ++ l).
Proof. intros fp l H. destruct (trim_id l H) as (c & r & -> & D & T). apply single_alike; assumption. Qed.
Lemma merge_eq : forall rest m, merge_rest m rest = m ++ flat_map (fun l => c_sp :: trim l) rest.
Proof. induction rest as [|l r IH]; intro m; cbn [merge_rest flat_map]; [rewrite app_nil_r; reflexivity|]. rewrite IH, <- app_assoc. reflexivity. Qed.
Lemma merge_trimmed : forall rest l, trimmed l -> Forall trimmed rest -> trimmed (merge_rest l rest) .
Proof.
  intros rest l L F. revert l L. induction F as [|x rest X F IH]; intros l L; cbn [merge_rest]; [exact L|]. apply IH.
  rewrite (proj1 X). destruct (trim_id l L) as (c & r & -> & D & T). destruct (trim_id x X) as (d & r' & -> & D' & T'). split; [|discriminate].
  unfold trim, trim_start. cbn [app drop_while]. rewrite D. rewrite <- T'. destruct (trim_end_last (d :: r')) as [Z|(a & y & Z & Dy)]; [rewrite T' in Z; discriminate Z|].
  rewrite Z. rewrite !app_comm_cons, !app_assoc. apply trim_end_snoc_id. exact Dy.
Qed.
Lemma flat_spaced : forall rest, Forall trimmed rest -> flat_map (fun l => c_sp :: trim l) rest = flat_map (fun l => c_sp :: l) rest.
Proof. intros rest F. induction F as [|x r [X _] F IH]; [reflexivity|]. cbn [flat_map]. rewrite X, IH. reflexivity. Qed.
Lemma loop_alike : forall fp ls result first, Forall trimmed ls -> (first = true -> result = []) -> (first = false -> result <> []) ->
  alike (first_segment_loop U result first ls fp cp lw)
    (result ++ (if first then match ls with [] => [] | l :: r => fp ++ l ++ flat_map (fun l => c_sp :: l) r end else flat_map (fun l => c_sp :: l) ls)).
Proof.
  intro fp. induction ls as [|l ls IH]; intros result first F R1 R2; cbn [first_segment_loop].
  - destruct first; rewrite app_nil_r; apply alike_refl.
  - apply Forall_cons_iff in F. destruct F as [L F]. cbv zeta. rewrite (proj1 L). destruct first.
    + rewrite (R1 eq_refl). cbn [push_nl is_nil negb app]. destruct (_ <=? lw).
      * rewrite app_assoc. apply IH; [exact F|discriminate|]. intros _ X. apply app_eq_nil in X. apply L, X.
      * eapply alike_trans; [apply single_trimmed; apply merge_trimmed; assumption|]. rewrite merge_eq, flat_spaced by exact F. apply alike_refl.
    + specialize (R2 eq_refl). unfold push_nl. replace (negb (is_nil result)) with true by (destruct result; [contradiction|reflexivity]).
      assert (Z : forall y, alike ((result ++ [c_nl]) ++ cp ++ y) (result ++ c_sp :: y)).
      { intro y. rewrite <- app_assoc. apply alike_app; [apply alike_refl|]. rewrite app_assoc. change (c_sp :: y) with ([c_sp] ++ y). apply alike_app; [|apply alike_refl].
        apply alike_white; [exact cp_white|reflexivity|discriminate|discriminate]. }
      destruct (_ <=? lw).
      * eapply alike_trans; [apply IH; [exact F|discriminate|]|].
        { intros _ X. destruct result; [contradiction|discriminate X]. }
        cbn [flat_map]. rewrite (app_assoc result (c_sp :: l)). apply alike_app; [|apply alike_refl]. apply Z.
      * eapply alike_trans; [apply alike_app; [apply alike_refl|]; apply single_trimmed; apply merge_trimmed; assumption|].
        rewrite merge_eq, flat_spaced by exact F. apply Z.
Qed.
(** The source lines of a piece are written with white space between them. *)
Definition spread (s : str) : str := join [c_sp] (soft_lines s).
Lemma join_spaced : forall l r, join [c_sp] (l :: r) = l ++ flat_map (fun l => c_sp :: l) r.
Proof. intros l r. revert l. induction r as [|x r IH]; intro l; cbn [flat_map]; [rewrite app_nil_r; reflexivity|]. rewrite join_cons, IH. reflexivity. Qed.
Lemma segment_alike : forall fp s, Forall trimmed (soft_lines s) -> alike (wrap_text_first_line_segment U s fp cp lw) (fp ++ spread s).
Proof.
  intros fp s F. unfold wrap_text_first_line_segment, spread. change (split_on WrapModel.c_nul s) with (soft_lines s).
  destruct (soft_lines s) as [|a [|b r]] eqn:E; [exfalso; eapply split_on_nonempty; exact E| |].
  - cbn [join]. assert (a = s) as ->. { pose proof (join_split_on soft s) as J. unfold soft_lines in E. rewrite E in J. exact J. }
    apply (single_trimmed fp s). exact (Forall_inv F).
  - eapply alike_trans; [apply loop_alike; [exact F|reflexivity|discriminate]|]. rewrite join_spaced. apply alike_refl.
Qed.
Lemma first_alike : forall t, Forall (fun s => Forall trimmed (soft_lines s)) (segments t) ->
  alike (wrap_text_first_line U t [] cp lw) (join [c_nl] (map spread (segments t))).
Proof.
  intros t F. destruct (segments t) as [|s r] eqn:E; [exfalso; eapply split_on_nonempty; exact E|]. rewrite (wrap_text_first_line_eq U lw t [] cp s r E).
  apply Forall_cons_iff in F. destruct F as [S1 F]. clear E t. revert s S1. cbn [map].
  assert (G : forall r x y, Forall (fun s => Forall trimmed (soft_lines s)) r -> alike x y ->
    alike (join hard_break (x :: map (fun s => cp ++ wrap_text_first_line_segment U s [] cp lw) r)) (join [c_nl] (y :: map spread r))).
  { clear r F. induction r as [|z r IH]; intros x y F X; [exact X|]. cbn [map]. rewrite !join_cons. apply Forall_cons_iff in F. destruct F as [F1 F].
    apply alike_app; [exact X|].
    eapply alike_trans; [apply alike_app; [apply alike_refl|]; apply (IH _ (cp ++ spread z) F); apply alike_app; [apply alike_refl|apply (segment_alike []); exact F1]|].
    assert (J : forall y l, join [c_nl] ((cp ++ y) :: l) = cp ++ join [c_nl] (y :: l)) by (intros v [|? ?]; [reflexivity|]; rewrite !join_cons, <- app_assoc; reflexivity).
    rewrite J, app_assoc. apply alike_app; [|apply alike_refl]. apply alike_white; [|reflexivity|discriminate|discriminate].
    apply white_app; [reflexivity|exact cp_white]. }
  intros s S1. apply G; [exact F|apply (segment_alike []); exact S1].
Qed.
End Pieces.
Lemma wrap_alike : forall U lw q t, white q = true -> Forall (fun s => Forall trimmed (soft_lines s)) (segments t) ->
  alike (wrap_text U t q lw) (q ++ join [c_nl] (map spread (segments t))).
Proof.
  intros U lw q t Q F. rewrite wrap_text_eq. assert (N : segments t <> []) by apply split_on_nonempty. induction F as [|s r S1 F IH]; [contradiction|].
  assert (W : alike (wrap_text_segment U s q lw) (q ++ spread s)) by (rewrite wrap_text_segment_eq; apply segment_alike; [exact Q|exact S1]).
  cbn [map]. destruct r as [|x r]; [exact W|]. cbn [map] in *. rewrite !join_cons. rewrite (app_assoc q). apply alike_app; [exact W|].
  eapply alike_trans; [apply alike_app; [apply alike_refl|apply IH; discriminate]|]. rewrite app_assoc. apply alike_app; [|apply alike_refl].
  apply alike_white; [|reflexivity|discriminate|discriminate]. apply white_app; [reflexivity|exact Q].
Qed.
End Gaps.
