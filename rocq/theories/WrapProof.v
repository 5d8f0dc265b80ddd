(** Proofs about wrapping. *)
From Coq Require Import Bool Arith NArith Lia String List.
From Verif Require Import Base BaseFacts WrapModel SpecWrap.
Import ListNotations.

Lemma nonws_app : forall a b, nonws (a ++ b) = nonws a ++ nonws b.
Proof. intros. apply filter_app. Qed.
Lemma nonws_ws : forall s, Forall (fun c => is_ws c = true) s -> nonws s = [].
Proof. induction 1; auto. unfold nonws in *. cbn. rewrite H. auto. Qed.
Lemma sp_ws : forall s, Forall (fun c => c = c_sp) s -> Forall (fun c => is_ws c = true) s.
Proof. intros s H. eapply Forall_impl; [|exact H]. intros c ->. reflexivity. Qed.
Lemma nonws_sp : forall s, Forall (fun c => c = c_sp) s -> nonws s = [].
Proof. intros. apply nonws_ws, sp_ws; auto. Qed.

Lemma map_const_snoc : forall A B (b : B) (l : list A), map (fun _ => b) l ++ [b] = b :: map (fun _ => b) l.
Proof. induction l; cbn; auto. rewrite IHl. reflexivity. Qed.

(** ** [wrap_single_segment] *)
Section Single.
Variable U : Uni.
Variables fp cp : str.
Variable lw : nat.

Definition line_str (pb : str * str) : str := fst pb ++ snd pb.
Definition ends_sp (b : str) : Prop := exists x, b = x ++ [c_sp].
(** Either within the width, or a single unit. *)
Definition good : Prop := width_laws U /\ spaced fp /\ spaced cp.
Definition fits (pb : str * str) : Prop := good ->
  u_width U (line_str pb) <= lw
  \/ exists tok sps, snd pb = tok ++ sps /\ unbreakable tok /\ Forall (fun c => c = c_sp) sps.

Lemma width_nil : width_laws U -> u_width U [] = 0. Proof. intro W. apply W. Qed.
Lemma width_sp : width_laws U -> forall a b, u_width U (a ++ c_sp :: b) = u_width U a + 1 + u_width U b. Proof. intro W. apply W. Qed.
Lemma width_ws : width_laws U -> forall a b, Forall (fun c => is_ws c = true) b -> u_width U a <= u_width U (a ++ b).
Proof. intro W. apply W. Qed.
Lemma width_sps : width_laws U -> forall s, Forall (fun c => c = c_sp) s -> forall a, u_width U (a ++ s) = u_width U a + List.length s.
Proof.
  intro W. induction s as [|c s IH]; intros H a; cbn [List.length]; [rewrite app_nil_r; lia|].
  inversion H; subst. rewrite (width_sp W). specialize (IH H3 []). cbn in IH. rewrite IH, (width_nil W). lia.
Qed.
Lemma width_spaced : width_laws U -> forall p b, spaced p -> u_width U (p ++ b) = u_width U p + u_width U b.
Proof.
  intros W p b [->|[q ->]]; [cbn; rewrite (width_nil W); reflexivity|].
  rewrite <- app_assoc. cbn [app]. rewrite !(width_sp W), (width_nil W). lia.
Qed.
Lemma byte_len_sps : forall s, Forall (fun c => c = c_sp) s -> byte_len s = List.length s.
Proof. induction 1; auto. cbn. subst. rewrite <- IHForall. reflexivity. Qed.
Lemma width_trim : width_laws U -> forall s, u_width U (trim_end s) <= u_width U s.
Proof. intros W s. destruct (trim_end_app s) as [t [E H]]. rewrite E at 2. apply width_ws; auto. Qed.

(** The finished lines [done], the body [cb] of the current line, after
    consuming [used]. [strict] holds when the text has no leading space. *)
Record inv (strict : Prop) (used : str) (s : wst) (done : list (str * str)) (cb : str) : Prop := mkInv {
  i_result : w_result s = flat_map (fun pb => trim_end (line_str pb) ++ [c_nl]) done;
  i_line : w_line s = (if w_first s then fp else cp) ++ cb;
  i_first : w_first s = is_nil done;
  i_prefixes : map fst done = match done with [] => [] | _ :: t => fp :: map (fun _ => cp) t end;
  i_done : Forall (fun pb => ends_sp (snd pb) /\ fits pb) done;
  i_cb : cb = [] \/ (ends_sp cb /\ fits (if w_first s then fp else cp, cb));
  i_tok : unbreakable (w_token s);
  i_state : fold_left unit_step (w_token s) (false, 0) = (w_bt s, w_depth s);
  i_sps : Forall (fun c => c = c_sp) (w_spaces s);
  i_nonws : nonws (concat (map snd done) ++ cb ++ w_token s) = nonws used;
  i_exact : strict -> concat (map snd done) ++ cb ++ w_token s ++ w_spaces s = used
                      /\ (w_token s = [] -> used = [])
                      /\ (w_spaces s <> [] -> w_bt s = false /\ w_depth s = 0);
  i_heads : Forall (fun pb => no_lead (snd pb)) done /\ no_lead cb /\ no_lead (w_token s)
}.
Lemma no_lead_app : forall a b, no_lead a -> (a = [] -> no_lead b) -> no_lead (a ++ b).
Proof. intros [|c a] b A B; [exact (B eq_refl)|]. intros r E. injection E as -> _. exact (A a eq_refl). Qed.
Lemma no_lead_nil : no_lead [].
Proof. intros r E. discriminate. Qed.
Lemma no_lead_one : forall c r, c <> c_sp -> no_lead (c :: r).
Proof. intros c r N x E. injection E as -> _. exact (N eq_refl). Qed.

Lemma spaced_cur : good -> forall b : bool, spaced (if b then fp else cp).
Proof. intros (_ & Sf & Sc) []; auto. Qed.
Lemma cur_width : forall b : bool, (if b then u_width U fp else u_width U cp) = u_width U (if b then fp else cp).
Proof. intros []; auto. Qed.

(** Adding a token with [sps] trailing spaces. *)
Lemma add_token_spec : forall strict used s done cb sps,
  inv strict used s done cb -> w_token s <> [] -> Forall (fun c => c = c_sp) sps ->
  exists done' cb' r l f,
    add_token U (w_result s) (w_line s) (w_token s) sps (u_width U fp) cp lw (w_first s) = (r, l, f)
    /\ r = flat_map (fun pb => trim_end (line_str pb) ++ [c_nl]) done'
    /\ l = (if f then fp else cp) ++ cb'
    /\ f = is_nil done'
    /\ map fst done' = match done' with [] => [] | _ :: t => fp :: map (fun _ => cp) t end
    /\ Forall (fun pb => ends_sp (snd pb) /\ fits pb) done'
    /\ fits (if f then fp else cp, cb')
    /\ (exists pre, cb' = pre ++ w_token s ++ sps)
    /\ concat (map snd done') ++ cb' = concat (map snd done) ++ cb ++ w_token s ++ sps
    /\ Forall (fun pb => no_lead (snd pb)) done' /\ no_lead cb'.
Proof.
  intros strict used s done cb sps I Ht Hs. unfold add_token.
  rewrite cur_width, (i_line _ _ _ _ _ I). set (cur := if w_first s then fp else cp) in *.
  change (if w_first s return list char then fp else cp) with cur.
  assert (Sp : good -> spaced cur) by (intro G; apply spaced_cur; auto).
  assert (Same : fits (cur, cb ++ w_token s ++ sps) -> exists done' cb' r l f,
    (w_result s, (cur ++ cb) ++ w_token s ++ sps, w_first s) = (r, l, f)
    /\ r = flat_map (fun pb => trim_end (line_str pb) ++ [c_nl]) done'
    /\ l = (if f then fp else cp) ++ cb'
    /\ f = is_nil done'
    /\ map fst done' = match done' with [] => [] | _ :: t => fp :: map (fun _ => cp) t end
    /\ Forall (fun pb => ends_sp (snd pb) /\ fits pb) done'
    /\ fits (if f then fp else cp, cb')
    /\ (exists pre, cb' = pre ++ w_token s ++ sps)
    /\ concat (map snd done') ++ cb' = concat (map snd done) ++ cb ++ w_token s ++ sps
    /\ Forall (fun pb => no_lead (snd pb)) done' /\ no_lead cb').
  { intro F. exists done, (cb ++ w_token s ++ sps), (w_result s), ((cur ++ cb) ++ w_token s ++ sps), (w_first s).
    repeat split; try apply I; auto.
    - fold cur. rewrite <- app_assoc. reflexivity.
    - exists cb. auto.
    - destruct (i_heads _ _ _ _ _ I) as (_ & A & C). apply no_lead_app; [exact A|]. intros _. apply no_lead_app; [exact C|congruence]. }
  assert (Hcb : cb = [] -> fits (cur, cb ++ w_token s ++ sps)).
  { intros -> _. right. exists (w_token s), sps. repeat split; auto. apply I. }
  destruct (u_width U (cur ++ cb) =? u_width U cur) eqn:Ew.
  - apply Same. destruct (i_cb _ _ _ _ _ I) as [->|[[x Hx] Hf]]; auto.
    intros G. exfalso. apply Nat.eqb_eq in Ew. destruct (G) as [W _].
    rewrite width_spaced in Ew; auto. rewrite Hx, (width_sp W), (width_nil W) in Ew. lia.
  - destruct (i_cb _ _ _ _ _ I) as [->|[[x Hx] Hf]]; [rewrite app_nil_r, Nat.eqb_refl in Ew; discriminate|].
    destruct (u_width U (cur ++ cb) + u_width U (w_token s) + byte_len sps <=? lw) eqn:E.
    + apply Same. apply Nat.leb_le in E. intros [W _]. left. unfold line_str. cbn [fst snd]. rewrite !app_assoc, (width_sps W) by auto.
      rewrite byte_len_sps in E by auto.
      replace ((cur ++ cb) ++ w_token s) with ((cur ++ x) ++ c_sp :: w_token s)
        by (rewrite Hx, <- !app_assoc; reflexivity).
      replace (cur ++ cb) with ((cur ++ x) ++ c_sp :: []) in E by (rewrite Hx, <- !app_assoc; reflexivity).
      rewrite (width_sp W) in E. rewrite (width_nil W) in E. rewrite (width_sp W). lia.
    + exists (done ++ [(cur, cb)]), (w_token s ++ sps).
      exists (w_result s ++ trim_end (cur ++ cb) ++ [c_nl]), (cp ++ w_token s ++ sps), false.
      repeat split; auto.
      * rewrite flat_map_app. rewrite <- (i_result _ _ _ _ _ I). cbn. rewrite app_nil_r. reflexivity.
      * destruct done; reflexivity.
      * rewrite map_app, (i_prefixes _ _ _ _ _ I). subst cur. rewrite (i_first _ _ _ _ _ I). destruct done as [|d0 dt]; cbn; auto.
        rewrite map_app. reflexivity.
      * apply Forall_app. split; [apply I|]. constructor; auto. split; auto. exists x. auto.
      * intros _. right. exists (w_token s), sps. repeat split; auto. apply I.
      * exists []. auto.
      * rewrite map_app, concat_app. cbn. rewrite app_nil_r, <- !app_assoc. reflexivity.
      * apply Forall_app. split; [apply I|]. constructor; [apply I|constructor].
      * apply no_lead_app; [apply I|congruence].
Qed.

Lemma unbreakable_snoc : forall t c, unbreakable t -> (c = c_sp -> fold_left unit_step t (false, 0) <> (false, 0)) ->
  unbreakable (t ++ [c]).
Proof.
  intros t c Ht Hc a b E. destruct b as [|y b] using rev_ind.
  - apply app_inj_tail in E. destruct E as [-> ->]. auto.
  - clear IHb. rewrite app_comm_cons, app_assoc in E. apply app_inj_tail in E. destruct E as [E _]. subst. eapply Ht; eauto.
Qed.


(** Flushing (in the neutral state) and then pushing a character. *)
Lemma flush_push_inv : forall strict used s done cb c bt' d',
  inv strict used s done cb -> w_bt s = false -> w_depth s = 0 -> c <> c_sp ->
  unit_step (false, 0) c = (bt', d') ->
  exists done' cb', inv strict (used ++ [c]) (push_char c bt' d' (flush_token U (u_width U fp) cp lw s)) done' cb'.
Proof.
  intros strict used s done cb c bt' d' I Hb Hd Hc Hst. unfold flush_token.
  destruct (is_nil (w_token s)) eqn:Nt; [|destruct (is_nil (w_spaces s)) eqn:Ns]; cbn [negb andb].
  - apply is_nil_true in Nt. exists done, cb. destruct I. unfold push_char.
    rewrite Nt in *. constructor; cbn [w_result w_line w_first w_token w_spaces w_bt w_depth]; auto.
    + cbn. intros a b E. destruct a as [|a0 a]; [|destruct a; discriminate]. cbn in E. congruence.
    + rewrite !nonws_app. rewrite !nonws_app in i_nonws0. rewrite <- i_nonws0. cbn [nonws filter app].
      rewrite app_nil_r, <- app_assoc. reflexivity.
    + intro St. destruct (i_exact0 St) as (E1 & E2 & E3). specialize (E2 eq_refl). rewrite E2 in *.
      apply app_eq_nil in E1. destruct E1 as [E1 E4]. apply app_eq_nil in E4. destruct E4 as [-> E5]. cbn in E5.
      rewrite E1, E5. repeat split; try congruence.
    + destruct i_heads0 as (A & C & _). split; [exact A|]. split; [exact C|]. apply no_lead_one. exact Hc.
  - apply is_nil_true in Ns. exists done, cb. destruct I. unfold push_char.
    rewrite Ns in *. constructor; cbn [w_result w_line w_first w_token w_spaces w_bt w_depth]; auto.
    + apply unbreakable_snoc; auto; intro; congruence.
    + rewrite fold_left_app, i_state0, Hb, Hd. exact Hst.
    + rewrite !nonws_app. rewrite !nonws_app in i_nonws0. rewrite <- i_nonws0, !app_assoc. reflexivity.
    + intro St. destruct (i_exact0 St) as (E1 & E2 & E3). repeat split; try congruence.
      * rewrite app_nil_r in *. rewrite <- E1, !app_assoc. reflexivity.
      * intro K. destruct (w_token s); discriminate.
    + destruct i_heads0 as (A & C & T). split; [exact A|]. split; [exact C|]. apply no_lead_app; [exact T|].
      intros _. apply no_lead_one. exact Hc.
  - apply is_nil_false in Nt. apply is_nil_false in Ns.
    destruct (add_token_spec strict used s done cb (w_spaces s) I Nt (i_sps _ _ _ _ _ I))
      as (done' & cb' & r & l & f & E & Hr & Hl & Hf & Hp & Hd' & Hfit & [pre Hcb] & Hcat & Hh1 & Hh2).
    rewrite E. exists done', cb'. unfold push_char.
    constructor; cbn [w_result w_line w_first w_token w_spaces w_bt w_depth]; auto.
    + right. split; auto. subst cb'. destruct (exists_last Ns) as [y [z Hz]].
      assert (z = c_sp). { pose proof (i_sps _ _ _ _ _ I) as F. rewrite Hz in F. apply Forall_app in F. destruct F as [_ F]. inversion F; auto. }
      subst z. rewrite Hz. exists (pre ++ w_token s ++ y). rewrite <- !app_assoc. reflexivity.
    + cbn. intros a b E'. destruct a as [|a0 a]; [|destruct a; discriminate]. cbn in E'. congruence.
    + rewrite app_assoc, nonws_app, Hcat. rewrite (nonws_app used). rewrite <- (i_nonws _ _ _ _ _ I).
      f_equal. rewrite !nonws_app. rewrite (nonws_sp (w_spaces s)) by apply I. rewrite app_nil_r. reflexivity.
    + intro St. destruct (i_exact _ _ _ _ _ I St) as (E1 & E2 & E3). repeat split; try congruence.
      * cbn [app]. rewrite app_assoc, Hcat, <- E1. reflexivity.
      * intro K; discriminate.
    + split; [exact Hh1|]. split; [exact Hh2|]. apply no_lead_one. exact Hc.
Qed.

Lemma neutral : forall (bt : bool) d, (bt, d) <> (false, 0) \/ (bt = false /\ d = 0).
Proof. intros [] [|d]; auto; left; discriminate. Qed.

(** Pushing a character inside a unit. *)
Lemma push_inv : forall strict used s done cb c,
  inv strict used s done cb -> (w_bt s, w_depth s) <> (false, 0) ->
  inv strict (used ++ [c]) (push_char c (fst (unit_step (w_bt s, w_depth s) c)) (snd (unit_step (w_bt s, w_depth s) c)) s) done cb.
Proof.
  intros strict used s done cb c I Hn. destruct I. unfold push_char.
  constructor; cbn [w_result w_line w_first w_token w_spaces w_bt w_depth]; auto.
  - apply unbreakable_snoc; auto. intros _. rewrite i_state0. exact Hn.
  - rewrite fold_left_app, i_state0. cbn [fold_left]. apply surjective_pairing.
  - rewrite !nonws_app. rewrite !nonws_app in i_nonws0. rewrite <- i_nonws0, !app_assoc. reflexivity.
  - intro St. destruct (i_exact0 St) as (E1 & E2 & E3).
    assert (Hs : w_spaces s = []).
    { destruct (w_spaces s) eqn:E; auto. exfalso. apply Hn. destruct E3 as [-> ->]; [discriminate|reflexivity]. }
    rewrite Hs in *. repeat split; try congruence.
    + rewrite app_nil_r in *. rewrite <- E1, !app_assoc. reflexivity.
    + intro K. destruct (w_token s); discriminate.
  - destruct i_heads0 as (A & C & T). split; [exact A|]. split; [exact C|]. apply no_lead_app; [exact T|].
    intro K. exfalso. apply Hn. rewrite <- i_state0, K. reflexivity.
Qed.

Lemma step_inv : forall (strict : Prop) used s done cb c, (strict -> used = [] -> c <> c_sp) ->
  inv strict used s done cb ->
  exists done' cb', inv strict (used ++ [c]) (wrap_step U (u_width U fp) cp lw s c) done' cb'.
Proof.
  intros strict used s done cb c Hlead I. unfold wrap_step.
  destruct (ceq_spec c c_bt) as [Hbt|Hbt]; destruct (w_depth s) as [|d] eqn:Hd; cbn [Nat.eqb andb].
  - destruct (w_bt s) eqn:Hb.
    + pose proof (push_inv _ _ _ _ _ c I) as P. rewrite Hb, Hd in P. specialize (P ltac:(discriminate)).
      subst c. cbn in P. eauto.
    + eapply flush_push_inv; eauto; subst c; [discriminate|reflexivity].
  - assert (Hn : (w_bt s, w_depth s) <> (false, 0)) by (rewrite Hd; destruct (w_bt s); discriminate).
    pose proof (push_inv _ _ _ _ _ c I Hn) as P. subst c. rewrite Hd in P. destruct (w_bt s) eqn:Hb; cbn in P |- *; eauto.
  - destruct (w_bt s) eqn:Hb.
    + pose proof (push_inv _ _ _ _ _ c I) as P. rewrite Hb, Hd in P. specialize (P ltac:(discriminate)).
      unfold unit_step in P. apply ceq_false in Hbt. rewrite Hbt in P. cbn in P. eauto.
    + assert (Hbt' := Hbt). apply ceq_false in Hbt'. destruct (ceq_spec c c_lbr) as [Hl|Hl].
      * eapply flush_push_inv; eauto; subst c; [discriminate|reflexivity].
      * apply ceq_false in Hl. cbn [Nat.ltb Nat.leb]. rewrite andb_false_r.
        destruct (ceq_spec c c_sp) as [->|Hs].
        -- exists done, cb. destruct I. constructor; cbn [w_result w_line w_first w_token w_spaces w_bt w_depth]; auto.
           ++ rewrite Hb, Hd in i_state0. exact i_state0.
           ++ apply Forall_app. auto.
           ++ rewrite i_nonws0. rewrite nonws_app. cbn. rewrite app_nil_r. reflexivity.
           ++ intro St. destruct (i_exact0 St) as (E1 & E2 & E3). repeat split; auto.
              ** rewrite <- E1, !app_assoc. reflexivity.
              ** intro K. exfalso. apply (Hlead St); auto.
        -- eapply flush_push_inv; eauto. unfold unit_step. rewrite Hbt', Hl. cbn. destruct (ceq c c_rbr); reflexivity.
  - assert (Hn : (w_bt s, w_depth s) <> (false, 0)) by (rewrite Hd; destruct (w_bt s); discriminate).
    pose proof (push_inv _ _ _ _ _ c I Hn) as P. rewrite Hd in P. unfold unit_step in P.
    apply ceq_false in Hbt. rewrite Hbt in P. cbn [andb] in P.
    destruct (w_bt s) eqn:Hb; [cbn in P; eauto|].
    destruct (ceq c c_lbr) eqn:Hl; [cbn in P |- *; eauto|].
    destruct (ceq c c_rbr) eqn:Hr; cbn in P |- *; [rewrite Nat.sub_0_r; eauto|eauto].
Qed.

Lemma fold_inv : forall (strict : Prop) text used s done cb, (strict -> forall r, used ++ text <> c_sp :: r) ->
  inv strict used s done cb ->
  exists done' cb', inv strict (used ++ text) (fold_left (wrap_step U (u_width U fp) cp lw) text s) done' cb'.
Proof.
  intros strict text. induction text as [|c text IH]; intros used s done cb Hl I; cbn [fold_left].
  - rewrite app_nil_r. eauto.
  - destruct (step_inv strict used s done cb c) as (done1 & cb1 & I1); auto.
    { intros St -> ->. apply (Hl St text). reflexivity. }
    assert (Hl1 : strict -> forall r, (used ++ [c]) ++ text <> c_sp :: r).
    { intros St r. rewrite <- app_assoc. apply (Hl St). }
    destruct (IH _ _ _ _ Hl1 I1) as (done2 & cb2 & I2).
    rewrite <- app_assoc in I2. eauto.
Qed.

(** The layout of the output. *)
Theorem wrap_single_layout : forall text, exists done last,
  wrap_single_segment U text fp cp lw
    = flat_map (fun pb => trim_end (line_str pb) ++ [c_nl]) done ++ trim_end (line_str last)
  /\ map fst (done ++ [last]) = fp :: map (fun _ => cp) done
  /\ Forall (fun pb => ends_sp (snd pb)) done
  /\ Forall fits (done ++ [last])
  /\ nonws (concat (map snd (done ++ [last]))) = nonws text
  /\ ((forall r, text <> c_sp :: r) -> exists sps, concat (map snd (done ++ [last])) ++ sps = text
         /\ Forall (fun c => c = c_sp) sps)
  /\ ((forall r, text <> c_sp :: r) -> text <> [] ->
        Forall (fun pb => exists c r, snd pb = c :: r /\ c <> c_sp) (done ++ [last])).
Proof.
  intro text. set (strict := forall r, text <> c_sp :: r).
  destruct (fold_inv strict text [] (mkW [] fp true [] [] false 0) [] []) as (done & cb & I).
  { cbn. intro St. exact St. }
  { constructor; cbn; auto.
    - rewrite app_nil_r; auto.
    - intros a b E. destruct a; discriminate.
    - split; [constructor|]. split; apply no_lead_nil. }
  assert (Head : forall b, no_lead b -> b <> [] -> exists c r, b = c :: r /\ c <> c_sp).
  { intros [|c b] A N; [congruence|]. exists c, b. split; [reflexivity|]. intros ->. exact (A b eq_refl). }
  assert (Ends : forall l : list (str * str), Forall (fun pb => ends_sp (snd pb) /\ fits pb) l -> Forall (fun pb => no_lead (snd pb)) l ->
    Forall (fun pb => exists c r, snd pb = c :: r /\ c <> c_sp) l).
  { intros l A C. rewrite Forall_forall in *. intros [q b] K. specialize (A _ K). specialize (C _ K). cbn [snd] in *.
    apply Head; [exact C|]. destruct A as [[x ->] _]. destruct x; discriminate. }
  cbn [app] in I. unfold wrap_single_segment. cbv zeta.
  set (s := fold_left _ text _) in *.
  destruct (is_nil (w_token s)) eqn:Nt; cbn [negb].
  - apply is_nil_true in Nt. set (cur := if w_first s then fp else cp).
    exists done, (cur, cb). repeat split.
    + unfold line_str at 2. cbn [fst snd]. rewrite <- (i_result _ _ _ _ _ I).
      assert (HL : w_line s = cur ++ cb) by exact (i_line _ _ _ _ _ I). rewrite <- HL.
      destruct (is_nil (trim_end (w_line s))) eqn:N; cbn; auto. apply is_nil_true in N. rewrite N, app_nil_r. reflexivity.
    + rewrite map_app, (i_prefixes _ _ _ _ _ I). subst cur. rewrite (i_first _ _ _ _ _ I). destruct done; cbn; auto.
      f_equal. apply map_const_snoc.
    + eapply Forall_impl; [|apply (i_done _ _ _ _ _ I)]. intros a [H _]; exact H.
    + apply Forall_app. split.
      * eapply Forall_impl; [|apply (i_done _ _ _ _ _ I)]. intros a [_ H]; exact H.
      * constructor; auto. destruct (i_cb _ _ _ _ _ I) as [->|[_ H]]; auto.
        intros _. right. exists [], []. cbn. repeat split; auto. intros a b E. destruct a; discriminate.
    + rewrite <- (i_nonws _ _ _ _ _ I), Nt, app_nil_r, map_app, concat_app. cbn. rewrite app_nil_r. reflexivity.
    + intro St. destruct (i_exact _ _ _ _ _ I St) as (E1 & E2 & E3). specialize (E2 Nt).
      exists (w_spaces s). split; [|apply I]. rewrite Nt in E1. cbn in E1. rewrite map_app, concat_app. cbn.
      rewrite app_nil_r, <- app_assoc. exact E1.
    + intros St Ne. exfalso. destruct (i_exact _ _ _ _ _ I St) as (_ & E2 & _). exact (Ne (E2 Nt)).
  - apply is_nil_false in Nt.
    destruct (add_token_spec strict text s done cb [] I Nt) as (done' & cb' & r & l & f & E & Hr & Hl & Hf & Hp & Hd' & Hfit & [pre Hcb] & Hcat & Hh1 & Hh2);
      [constructor|].
    rewrite E. set (cur := if f then fp else cp).
    exists done', (cur, cb'). repeat split.
    + unfold line_str at 2. cbn [fst snd]. assert (HL : l = cur ++ cb') by exact Hl. rewrite <- HL, <- Hr.
      destruct (is_nil (trim_end l)) eqn:N; cbn; auto. apply is_nil_true in N. rewrite N, app_nil_r. reflexivity.
    + rewrite map_app, Hp. subst cur. rewrite Hf. destruct done'; cbn; auto.
      f_equal. apply map_const_snoc.
    + eapply Forall_impl; [|apply Hd']. intros a [H _]; exact H.
    + apply Forall_app. split.
      * eapply Forall_impl; [|apply Hd']. intros a [_ H]; exact H.
      * constructor; auto.
    + rewrite <- (i_nonws _ _ _ _ _ I), map_app, concat_app. cbn. rewrite app_nil_r, Hcat, app_nil_r. reflexivity.
    + intro St. destruct (i_exact _ _ _ _ _ I St) as (E1 & E2 & E3).
      exists (w_spaces s). split; [|apply I]. rewrite map_app, concat_app. cbn.
      rewrite app_nil_r, Hcat, app_nil_r, <- !app_assoc. exact E1.
    + intros _ _. apply Forall_app. split; [exact (Ends done' Hd' Hh1)|]. constructor; [|constructor]. apply Head; [exact Hh2|].
      cbn [snd]. rewrite Hcb. destruct pre; [|discriminate]. destruct (w_token s); [congruence|discriminate].
Qed.
End Single.

(** ** Text in which no word begins with white space other than spaces *)
Definition starts_dark (b : str) : Prop := exists c r, b = c :: r /\ is_ws c = false /\ c <> soft.
Lemma steady_weak : forall s, steady false s -> steady true s.
Proof. intros [|c s]; [auto|]. intros [A B]. split; [intro H; right; right; reflexivity|exact B]. Qed.
Lemma steady_app_l : forall a b p, steady p (a ++ b) -> steady p a.
Proof. induction a as [|c a IH]; intros b p H; [exact I|]. destruct H as [A B]. split; [exact A|]. eapply IH, B. Qed.
Lemma steady_app_r : forall a c b p, (c = c_sp \/ c = c_nl \/ c = soft) -> steady p (a ++ c :: b) -> steady false b.
Proof.
  induction a as [|d a IH]; intros c b p C H; [|destruct H as [_ H]; eapply IH; eauto].
  destruct H as [_ H]. destruct C as [->|[->| ->]]; exact H.
Qed.
Lemma steady_app : forall a c b p, (c = c_sp \/ c = c_nl \/ c = soft) -> steady p a -> steady false b -> steady p (a ++ c :: b).
Proof.
  induction a as [|d a IH]; intros c b p C A H.
  - cbn [app steady]. destruct C as [->|[->| ->]]; (split; [auto|exact H]); intro K; discriminate K.
  - destruct A as [A1 A2]. split; [exact A1|]. apply IH; auto.
Qed.
Lemma bodies_dark : forall (done : list (str * str)) last sps text,
  steady false text -> List.concat (map snd (done ++ [last])) ++ sps = text ->
  Forall (fun pb => ends_sp (snd pb)) done ->
  Forall (fun pb => exists c r, snd pb = c :: r /\ c <> c_sp) (done ++ [last]) ->
  ~ In soft text -> ~ In c_nl text ->
  Forall (fun pb => starts_dark (snd pb)) (done ++ [last]).
Proof.
  assert (H0 : forall b y, steady false (b ++ y) -> (exists c r, b = c :: r /\ c <> c_sp) -> ~ In soft (b ++ y) -> ~ In c_nl (b ++ y) -> starts_dark b).
  { intros b y St (c & r & -> & N) Ns Nn. exists c, r. split; [reflexivity|]. destruct St as [S1 _]. split.
    - destruct (is_ws c) eqn:W; [|reflexivity]. destruct (S1 eq_refl) as [->|[->|K]]; [congruence|exfalso; apply Nn; left; reflexivity|discriminate K].
    - intros ->. apply Ns. left. reflexivity. }
  intros done last sps. induction done as [|[q b] done IH]; intros text St E He Hh Ns Nn.
  - destruct last as [q b]. cbn in E. rewrite app_nil_r in E. subst text. inversion Hh as [|? ? Q _]; subst. cbn [snd] in Q.
    constructor; [|constructor]. cbn [snd]. eapply H0; eassumption.
  - cbn [app map List.concat snd] in E. inversion Hh as [|? ? Q Hh']; subst. inversion He as [|? ? [x Hx] He']; subst. cbn [snd] in *.
    rewrite <- app_assoc in *. cbn [app]. constructor; [cbn [snd]; eapply H0; eassumption|].
    eapply IH; [|reflexivity|exact He'|exact Hh'|intro K; apply Ns; apply in_or_app; right; exact K|intro K; apply Nn; apply in_or_app; right; exact K].
    rewrite Hx, <- app_assoc in St. cbn [app] in St. eapply steady_app_r; [left; reflexivity|exact St].
Qed.

(** ** White space and words *)
Lemma split_ws_aux_app : forall a cur c b, is_ws c = true ->
  split_ws_aux cur (a ++ c :: b) = split_ws_aux cur a ++ split_ws_aux [] b.
Proof.
  induction a as [|x a IH]; intros cur c b H; cbn [app split_ws_aux].
  - rewrite H. destruct (is_nil cur); reflexivity.
  - destruct (is_ws x); [destruct (is_nil cur)|]; rewrite IH; auto.
Qed.
Definition sepc (c : char) : Prop := is_ws c = true \/ c = soft.
Lemma words_sep : forall a c b, sepc c -> words (a ++ c :: b) = words a ++ words b.
Proof.
  intros a c b H. unfold words, split_whitespace. rewrite map_app. cbn [map].
  apply split_ws_aux_app. destruct H as [H| ->]; [|reflexivity].
  destruct (ceq c soft); auto.
Qed.
Lemma words_nil : words [] = []. Proof. reflexivity. Qed.
Lemma words_cons_sep : forall c b, sepc c -> words (c :: b) = words b.
Proof. intros c b H. apply (words_sep [] c b H). Qed.
Lemma words_snoc_sep : forall c b, sepc c -> words (b ++ [c]) = words b.
Proof. intros c b H. rewrite words_sep by auto. rewrite words_nil, app_nil_r. reflexivity. Qed.
Lemma words_ws_l : forall a b, Forall (fun c => is_ws c = true) a -> words (a ++ b) = words b.
Proof. induction 1; auto. cbn [app]. rewrite words_cons_sep; auto. left; auto. Qed.
Lemma words_ws_r : forall a b, Forall (fun c => is_ws c = true) b -> words (a ++ b) = words a.
Proof.
  intros a b H. revert a. induction H as [|c b H F IH]; intro a; [rewrite app_nil_r; auto|].
  rewrite words_sep by (left; auto). rewrite <- (app_nil_l b), IH, words_nil, app_nil_r. reflexivity.
Qed.
Lemma words_trim : forall s, words (trim s) = words s.
Proof.
  intro s. destruct (trim_app s) as [a [b [E [Ha Hb]]]]. rewrite E at 2.
  rewrite words_ws_l, words_ws_r; auto.
Qed.
Lemma nonws_trim : forall s, nonws (trim s) = nonws s.
Proof.
  intro s. destruct (trim_app s) as [a [b [E [Ha Hb]]]]. rewrite E at 2.
  rewrite !nonws_app, (nonws_ws a), (nonws_ws b) by auto. rewrite app_nil_r. reflexivity.
Qed.
Lemma words_app_end : forall a b, (a = [] \/ ends_sp a) -> words (a ++ b) = words a ++ words b.
Proof.
  intros a b [->|[x ->]]; auto. rewrite <- app_assoc. cbn [app].
  rewrite words_sep, words_snoc_sep by (left; reflexivity). reflexivity.
Qed.
Lemma words_concat : forall (l : list str) last, Forall ends_sp l ->
  words (concat l ++ last) = concat (map words l) ++ words last.
Proof.
  induction 1; auto. cbn [concat map]. rewrite <- app_assoc, words_app_end, IHForall, app_assoc; auto.
Qed.
Lemma words_join : forall c ls, sepc c -> words (join [c] ls) = concat (map words ls).
Proof.
  intros c ls H. induction ls as [|x [|y r] IH]; auto.
  - cbn. rewrite app_nil_r. reflexivity.
  - rewrite join_cons. cbn [app]. rewrite words_sep, IH by auto. reflexivity.
Qed.
Lemma nonws_join : forall c ls, sepc c -> nonws (join [c] ls) = concat (map nonws ls).
Proof.
  intros c ls H. induction ls as [|x [|y r] IH]; auto.
  - cbn. rewrite app_nil_r. reflexivity.
  - rewrite join_cons, !nonws_app, IH. cbn [map concat]. f_equal.
    replace (nonws [c]) with (@nil char); auto. unfold nonws; cbn. destruct H as [-> | ->]; reflexivity.
Qed.
Lemma nonws_concat : forall l, nonws (concat l) = concat (map nonws l).
Proof. induction l; auto. cbn. rewrite nonws_app, IHl. reflexivity. Qed.
Lemma join_flat : forall (c : char) (f : str * str -> str) done last,
  flat_map (fun pb => f pb ++ [c]) done ++ f last = join [c] (map f (done ++ [last])).
Proof.
  intros c f done last. induction done as [|d r IH]; auto. cbn [flat_map app map].
  rewrite <- app_assoc, <- app_assoc, IH. destruct r; reflexivity.
Qed.
Lemma join_app2 : forall sep (a b : list str), a <> [] -> b <> [] -> join sep (a ++ b) = join sep a ++ sep ++ join sep b.
Proof.
  induction a as [|x [|y r] IH]; intros b Ha Hb; [congruence| |].
  - cbn [app]. destruct b; [congruence|]. reflexivity.
  - cbn [app] in *. rewrite join_cons, IH, join_cons, <- !app_assoc; auto. discriminate.
Qed.
Lemma trim_end_inner : forall p a, trim_end (p ++ trim_end a) = trim_end (p ++ a).
Proof.
  intros p a. destruct (trim_end_app a) as [t [E F]]. symmetry. rewrite E at 1. rewrite app_assoc, trim_end_app_ws; auto.
Qed.
Lemma trim_end_congr : forall p a b, trim_end a = trim_end b -> trim_end (p ++ a) = trim_end (p ++ b).
Proof. intros p a b H. rewrite <- (trim_end_inner p a), H. apply trim_end_inner. Qed.

(** ** Segments *)

Lemma trim_blank : forall s, trim s = [] -> blank s.
Proof.
  intros s H. destruct (trim_app s) as [a [b [E [Ha Hb]]]]. rewrite H in E. subst. apply Forall_app; auto.
Qed.
Lemma trim_end_head : forall c s, is_ws c = false -> exists r, trim_end (c :: s) = c :: r.
Proof.
  intros c s H. destruct (trim_end_app (c :: s)) as [t [E F]]. destruct (trim_end (c :: s)) as [|y r].
  - cbn in E. subst. inversion F. congruence.
  - cbn in E. injection E as -> _. eauto.
Qed.
Lemma trim_no_lead : forall s, no_lead (trim s).
Proof.
  intros s r H. unfold trim in H. destruct (trim_start s) as [|c t] eqn:E.
  - discriminate.
  - unfold trim_start in E. apply drop_while_head in E. destruct (trim_end_head c t E) as [r' K].
    rewrite K in H. inversion H. subst. discriminate.
Qed.

Lemma Forall_trim : forall (P : char -> Prop) s, Forall P s -> Forall P (trim s).
Proof.
  intros P s H. destruct (trim_app s) as [a [b [E _]]]. rewrite E in H. apply Forall_app in H. destruct H as [_ H].
  apply Forall_app in H. apply H.
Qed.
Lemma Forall_join : forall (P : char -> Prop) c ls, P c -> Forall (Forall P) ls -> Forall P (join [c] ls).
Proof.
  intros P c ls Hc H. induction ls as [|x [|y r] IH]; cbn; auto.
  - inversion H; auto.
  - inversion H; subst. apply Forall_app. split; auto.
Qed.
Lemma Forall_split : forall (P : char -> Prop) c s, Forall P s -> Forall (Forall P) (split_on c s).
Proof.
  intros P c s H. induction H as [|x s Hx H IH]; cbn; auto. destruct (ceq x c); auto.
  destruct (split_on c s) as [|p ps]; auto. inversion IH; subst. auto.
Qed.

Lemma steady_trim : forall s, steady false s -> steady false (trim s).
Proof.
  intros s H. unfold trim. destruct (trim_end_app (trim_start s)) as [t [E _]].
  apply (steady_app_l _ t). rewrite <- E. clear t E.
  assert (G : forall s p, steady p s -> steady false (trim_start s)); [|exact (G s false H)].
  clear. unfold trim_start. induction s as [|c s IH]; intros p H; [exact I|]. cbn [drop_while]. destruct H as [A B].
  destruct (is_ws c) eqn:W; [eapply IH, B|]. split; [intro K; congruence|exact B].
Qed.
Lemma trim_dark : forall l, ~ blank l -> ~ In soft l -> starts_dark (trim l).
Proof.
  intros l Hb Hs. destruct (trim l) as [|c r] eqn:E; [exfalso; apply Hb, trim_blank, E|]. exists c, r. split; [reflexivity|].
  assert (In c l) as Hc.
  { assert (F : Forall (fun x => In x l) (trim l)) by (apply Forall_trim, Forall_forall; auto). rewrite E in F. inversion F; auto. }
  split; [|intros ->; exact (Hs Hc)].
  destruct (is_ws c) eqn:W; [|reflexivity]. exfalso. unfold trim in E.
  assert (H : forall s, match trim_start s with [] => True | c :: _ => is_ws c = false end).
  { clear. unfold trim_start. induction s as [|c s IH]; [exact I|]. cbn [drop_while]. destruct (is_ws c) eqn:W; [exact IH|exact W]. }
  specialize (H l). destruct (trim_start l) as [|d t] eqn:Q; [discriminate E|]. destruct (trim_end_head d t H) as [r' R]. congruence.
Qed.
Lemma steady_join : forall ls, Forall (steady false) ls -> steady false (join [c_sp] ls).
Proof.
  induction ls as [|l ls IH]; intro H; [exact I|]. inversion H; subst. destruct ls as [|l2 ls]; [assumption|].
  rewrite join_cons. cbn [app]. apply steady_app; [left; reflexivity|assumption|]. apply IH. assumption.
Qed.

Lemma steady_split_aux : forall c s p, (c = c_sp \/ c = c_nl \/ c = soft) -> steady p s ->
  exists l r, split_on c s = l :: r /\ steady p l /\ Forall (steady false) r.
Proof.
  intros c. induction s as [|x s IH]; intros p C H; [exists [], []; repeat split; auto|].
  destruct H as [A B]. cbn [split_on]. destruct (ceq_spec x c) as [->|N].
  - destruct (IH false C) as (l & r & E & L & R).
    { destruct C as [->|[->| ->]]; exact B. }
    exists [], (split_on c s). split; [reflexivity|]. split; [exact I|]. rewrite E. constructor; assumption.
  - destruct (IH _ C B) as (l & r & E & L & R). rewrite E. exists (x :: l), r. split; [reflexivity|]. split; [split; assumption|assumption].
Qed.
Lemma steady_split : forall c s, (c = c_sp \/ c = c_nl \/ c = soft) -> steady false s -> Forall (steady false) (split_on c s).
Proof. intros c s C H. destruct (steady_split_aux c s false C H) as (l & r & -> & L & R). constructor; assumption. Qed.

Section Seg.
Variable U : Uni.
Variable lw : nat.

Lemma single_lines : forall fp cp text, exists L : list wline,
  wrap_single_segment U text fp cp lw = join [c_nl] (map wl_t L)
  /\ (exists n, map wl_p L = fp :: repeat cp n)
  /\ Forall (fun x => shows (wl_p x) (wl_b x) (wl_t x)) L
  /\ (good U fp cp -> Forall (line_ok U lw) L) /\ Forall (fun x => wl_t x = trim_end (wl_t x)) L
  /\ nonws (concat (map wl_b L)) = nonws text
  /\ (no_lead text -> concat (map words (map wl_b L)) = words text
      /\ (forall P : char -> Prop, Forall P text -> Forall (fun x => Forall P (wl_b x)) L)
      /\ (steady false text -> text <> [] -> ~ In soft text -> ~ In c_nl text -> Forall (fun x => starts_dark (wl_b x)) L)).
Proof.
  intros fp cp text.
  destruct (wrap_single_layout U fp cp lw text) as (done & last & E & Hp & He & Hf & Hn & Hx & Hd).
  set (mk := fun pb : str * str => (pb, trim_end (line_str pb)) : wline).
  exists (map mk (done ++ [last])).
  assert (Eb : map wl_b (map mk (done ++ [last])) = map snd (done ++ [last])) by (rewrite map_map; reflexivity).
  rewrite Eb. repeat apply conj.
  - rewrite E. rewrite (join_flat c_nl (fun pb => trim_end (line_str pb))), map_map. reflexivity.
  - exists (List.length done). rewrite map_map. transitivity (map fst (done ++ [last])); [reflexivity|].
    rewrite Hp. f_equal. clear. induction done; cbn; congruence.
  - apply Forall_map, Forall_forall. intros pb _.
    destruct (trim_end_app (line_str pb)) as [t [Et Ft]]. exists t. auto.
  - intro G. apply Forall_map. eapply Forall_impl; [|exact Hf]. intros pb H. specialize (H G). split.
    + destruct (trim_end_app (line_str pb)) as [t [Et Ft]]. exists t. auto.
    + destruct H as [H|H]; [left|right; exact H]. etransitivity; [apply width_trim; apply G|exact H].
  - apply Forall_map, Forall_forall. intros pb _. symmetry. exact (trim_end_idem (line_str pb)).
  - exact Hn.
  - intro Nl. destruct (Hx Nl) as [sps [Ht Fs]]. rewrite <- Ht.
    split; [|split; [intros P HP; apply Forall_app in HP; destruct HP as [HP _]; apply Forall_concat in HP;
             apply Forall_map; rewrite Forall_map in HP; exact HP|]].
    2:{ rewrite Ht. intros St Ne Ns Nn. apply Forall_map. eapply (bodies_dark done last sps); [|exact Ht|exact He|exact (Hd Nl Ne)|exact Ns|exact Nn]. exact St. }
    rewrite words_ws_r by (apply sp_ws; auto).
    rewrite !map_app, !concat_app. cbn [map concat]. rewrite !app_nil_r.
    symmetry. apply words_concat. apply Forall_map. exact He.
Qed.

Lemma merge_rest_join : forall rest m, merge_rest m rest = join [c_sp] (m :: map trim rest).
Proof.
  induction rest as [|l r IH]; intro m; auto. cbn [merge_rest map]. rewrite IH, join_cons.
  destruct r as [|l' r]; cbn [map]; [reflexivity|]. rewrite !join_cons, <- !app_assoc. reflexivity.
Qed.
Lemma sepc_sp : sepc c_sp. Proof. left; reflexivity. Qed.

Lemma first_loop_lines : forall fp cp ls first result, ls <> [] ->
  exists L : list wline,
    first_segment_loop U result first ls fp cp lw = push_nl result ++ join [c_nl] (map wl_t L)
    /\ L <> []
    /\ (exists q n, map wl_p L = q :: repeat cp n /\ (q = (if first then fp else cp) \/ q = cp))
    /\ Forall (fun x => shows (wl_p x) (wl_b x) (wl_t x)) L
    /\ (good U fp cp -> Forall (line_ok U lw) L)
    /\ nonws (concat (map wl_b L)) = concat (map nonws ls)
    /\ (Forall (fun l => ~ blank l) ls -> concat (map words (map wl_b L)) = concat (map words ls)
        /\ (exists n, map wl_p L = (if first then fp else cp) :: repeat cp n)
        /\ Forall (fun x => wl_t x = trim_end (wl_t x)) L
        /\ (forall P : char -> Prop, P c_sp -> Forall (Forall P) ls -> Forall (fun x => Forall P (wl_b x)) L)
        /\ (Forall (steady false) ls -> Forall (fun l => ~ In soft l /\ ~ In c_nl l) ls -> Forall (fun x => starts_dark (wl_b x)) L)).
Proof.
  intros fp cp. induction ls as [|l rest IH]; intros first result Hne; [congruence|].
  cbn [first_segment_loop]. set (cur := if first then fp else cp).
  assert (Scur : good U fp cp -> spaced cur) by (intros (_ & Sf & Sc); subst cur; destruct first; auto).
  destruct (Nat.leb_spec (u_width U cur + u_width U (trim l)) lw) as [Hle|Hgt].
  - set (x0 := (cur, trim l, cur ++ trim l) : wline).
    assert (Hs0 : shows (wl_p x0) (wl_b x0) (wl_t x0)) by (exists []; split; [constructor|rewrite app_nil_r; reflexivity]).
    assert (Hx0 : good U fp cp -> line_ok U lw x0).
    { intro G. split; [exact Hs0|left]. cbn. rewrite width_spaced; auto. apply G. }
    assert (Ht0 : ~ blank l -> wl_t x0 = trim_end (wl_t x0)).
    { intro Hb. subst x0. cbn [wl_t snd]. unfold trim. destruct (trim_end_last (trim_start l)) as [K|(a & c & K & Kc)].
      - exfalso. apply Hb. apply trim_blank. exact K.
      - rewrite K, app_assoc. symmetry. apply trim_end_snoc_id. auto. }
    destruct rest as [|l2 rest].
    + cbn [first_segment_loop]. exists [x0]. repeat apply conj; auto; try discriminate.
      * exists cur, 0. auto.
      * cbn [map concat]. rewrite !app_nil_r. exact (nonws_trim l).
      * intros Hb. inversion Hb; subst. repeat split; auto.
        -- cbn [map concat]. rewrite !app_nil_r. exact (words_trim l).
        -- exists 0. reflexivity.
        -- intros P _ HP. inversion HP; subst. constructor; auto. apply Forall_trim; auto.
        -- intros _ HN. inversion HN as [|? ? [N1 _] _]; subst. constructor; [|constructor]. apply trim_dark; assumption.
    + destruct (IH false (push_nl result ++ cur ++ trim l)) as (L & E & Ln & Lp & Ls & Lo & Lw & Lx); [discriminate|].
      rewrite E. destruct (is_nil (push_nl result ++ cur ++ trim l)) eqn:N.
      * assert (N' := N). apply is_nil_true in N'. unfold push_nl at 1. rewrite N. cbn [negb]. rewrite N'.
        apply app_eq_nil in N'. destruct N' as [N1 N2]. apply app_eq_nil in N2. destruct N2 as [N2 N3].
        exists L. rewrite N1. repeat apply conj; auto.
        -- destruct Lp as (q & n & Lp1 & Lp2). exists q, n. split; auto. right. tauto.
        -- cbn [map concat]. rewrite Lw. rewrite <- (nonws_trim l), N3. reflexivity.
        -- intro Hb. exfalso. inversion Hb; subst. apply H1. apply trim_blank. exact N3.
      * exists (x0 :: L). repeat apply conj; auto; try discriminate.
        -- unfold push_nl at 1. rewrite N. cbn [negb map]. destruct L as [|y L]; [congruence|].
           cbn [map]. rewrite join_cons. cbn [wl_t x0 snd]. rewrite <- !app_assoc. reflexivity.
        -- destruct Lp as (q & n & Lp1 & Lp2). exists cur, (S n). cbn [map repeat]. rewrite Lp1.
           replace q with cp by (destruct Lp2; auto). auto.
        -- cbn [map concat]. rewrite nonws_app, Lw. change (wl_b x0) with (trim l). rewrite nonws_trim. reflexivity.
        -- intro Hb. inversion Hb; subst. destruct (Lx H2) as (X1 & (n & X2) & X3 & X4 & X5). repeat split; auto.
           ++ cbn [map concat]. rewrite X1. change (wl_b x0) with (trim l). rewrite words_trim. reflexivity.
           ++ exists (S n). cbn [map]. rewrite X2. reflexivity.
           ++ intros P Ps HP. inversion HP; subst. constructor; auto. apply Forall_trim; auto.
           ++ intros St HN. inversion St; subst. inversion HN as [|? ? [N1 _] HN']; subst. constructor; [apply trim_dark; assumption|apply X5; assumption].
  - destruct (single_lines cur cp (merge_rest (trim l) rest)) as (L & E & (n & Hp) & Hs & Ho & Ht & Hn & Hw).
    exists L. rewrite E. repeat apply conj; auto.
    + intro K. subst L. discriminate.
    + exists cur, n. auto.
    + intro G. apply Ho. split; [apply G|]. split; [auto|apply G].
    + rewrite Hn, merge_rest_join, nonws_join by apply sepc_sp. cbn [map concat]. rewrite nonws_trim, map_map. f_equal.
      f_equal. apply map_ext. intro. apply nonws_trim.
    + intro Hb.
      assert (Nl : no_lead (merge_rest (trim l) rest)).
      { rewrite merge_rest_join. intros r K. inversion Hb; subst.
        destruct (trim l) as [|c t] eqn:El; [apply H1, trim_blank; auto|].
        apply (trim_no_lead l t). rewrite El. destruct (map trim rest); [|rewrite join_cons in K]; cbn in K; congruence. }
      destruct (Hw Nl) as (Hw1 & Hw2 & Hw3). repeat split; eauto.
      * rewrite Hw1. rewrite merge_rest_join, words_join by apply sepc_sp. cbn [map concat]. rewrite words_trim, map_map. f_equal.
        f_equal. apply map_ext. intro. apply words_trim.
      * intros P Ps HP. apply Hw2. rewrite merge_rest_join. apply Forall_join; auto.
        inversion HP; subst. constructor; [apply Forall_trim; auto|]. apply Forall_map. eapply Forall_impl; [|exact H2].
        intros a Ha. apply Forall_trim; auto.
      * intros St HN.
        assert (Chars : Forall (fun c => c <> soft /\ c <> c_nl) (merge_rest (trim l) rest)).
        { rewrite merge_rest_join. apply Forall_join; [split; discriminate|].
          assert (F : Forall (fun l => Forall (fun c => c <> soft /\ c <> c_nl) (trim l)) (l :: rest)).
          { eapply Forall_impl; [|exact HN]. intros a [A1 A2]. apply Forall_trim, Forall_forall. intros c Hc. split; intros ->; auto. }
          inversion F; subst. constructor; [assumption|]. apply Forall_map. assumption. }
        apply Hw3.
        -- rewrite merge_rest_join. apply steady_join. inversion St; subst. constructor; [apply steady_trim; assumption|].
           apply Forall_map. eapply Forall_impl; [|eassumption]. intros a Ha. apply steady_trim, Ha.
        -- rewrite merge_rest_join. inversion Hb; subst. destruct (trim l) as [|c t] eqn:El; [exfalso; apply H1, trim_blank, El|].
           destruct (map trim rest); [discriminate|rewrite join_cons; discriminate].
        -- intro K. rewrite Forall_forall in Chars. exact (proj1 (Chars _ K) eq_refl).
        -- intro K. rewrite Forall_forall in Chars. exact (proj2 (Chars _ K) eq_refl).
Qed.

Lemma first_segment_lines : forall fp cp s, exists L : list wline,
  wrap_text_first_line_segment U s fp cp lw = join [c_nl] (map wl_t L)
  /\ L <> []
  /\ (exists q n, map wl_p L = q :: repeat cp n /\ (q = fp \/ q = cp))
  /\ Forall (fun x => shows (wl_p x) (wl_b x) (wl_t x)) L
  /\ (good U fp cp -> Forall (line_ok U lw) L)
  /\ nonws (concat (map wl_b L)) = nonws s
  /\ (clean_segment s -> concat (map words (map wl_b L)) = words s
      /\ (exists n, map wl_p L = fp :: repeat cp n)
      /\ Forall (fun x => wl_t x = trim_end (wl_t x)) L
      /\ (forall P : char -> Prop, P c_sp -> Forall (fun c => c = soft \/ P c) s -> Forall (fun x => Forall P (wl_b x)) L)
      /\ (steady false s -> ~ In c_nl s -> Forall (fun x => starts_dark (wl_b x)) L)).
Proof.
  intros fp cp s. unfold wrap_text_first_line_segment. change c_nul with soft.
  destruct (split_on soft s) as [|a [|b r]] eqn:Es.
  - exfalso. eapply split_on_nonempty; eauto.
  - assert (s = a) by (rewrite <- (join_split_on soft s), Es; reflexivity). subst a.
    assert (Ns : ~ In soft s).
    { pose proof (split_on_forall soft s) as F. rewrite Es in F. inversion F as [|? ? F1 _]; subst. intro K. rewrite Forall_forall in F1. exact (F1 _ K eq_refl). }
    destruct (single_lines fp cp s) as (L & E & (n & Hp) & Hs & Ho & Ht & Hn & Hw).
    exists L. repeat apply conj; auto.
    + intro K. subst. discriminate.
    + exists fp, n. auto.
    + intros [C1 C2]. destruct (Hw C1) as (Hw1 & Hw2 & Hw3). repeat split; eauto.
      * intros P Ps HP. apply Hw2. rewrite Forall_forall in *. intros c Hc. destruct (HP c Hc) as [->|K]; [contradiction|exact K].
      * intros St Nn. apply Hw3; auto. intros ->. inversion C2; subst. apply H1. constructor.
  - destruct (first_loop_lines fp cp (a :: b :: r) true []) as (L & E & Ln & Lp & Ls & Lo & Lw & Lx); [discriminate|].
    exists L. rewrite E. repeat apply conj; auto.
    + rewrite Lw. rewrite <- (join_split_on soft s), Es, nonws_join by (right; reflexivity). reflexivity.
    + intros [C1 C2]. unfold soft_lines in C2. rewrite Es in C2. destruct (Lx C2) as (X1 & X2 & X3 & X4 & X5).
      assert (NS : Forall (fun l => ~ In soft l) (a :: b :: r)) by (rewrite <- Es; eapply Forall_impl; [|apply split_on_forall]; intros l Hl K; rewrite Forall_forall in Hl; exact (Hl _ K eq_refl)).
      repeat split; auto.
      * rewrite X1. rewrite <- (join_split_on soft s), Es, words_join by (right; reflexivity). reflexivity.
      * intros P Ps HP. apply X4; auto. apply (Forall_split _ soft) in HP. rewrite Es in HP. rewrite Forall_forall in *. intros l Hl.
        specialize (HP l Hl). specialize (NS l Hl). rewrite Forall_forall in *. intros c Hc. destruct (HP c Hc) as [->|K]; [contradiction|exact K].
      * intros St Nn. apply X5.
        -- rewrite <- Es. apply steady_split; [auto|exact St].
        -- assert (NN : Forall (fun l => ~ In c_nl l) (a :: b :: r)).
           { rewrite <- Es. assert (F : Forall (Forall (fun c => c <> c_nl)) (split_on soft s)) by (apply Forall_split, Forall_forall; intros c Hc ->; auto).
             eapply Forall_impl; [|exact F]. intros l Hl K. rewrite Forall_forall in Hl. exact (Hl _ K eq_refl). }
           rewrite Forall_forall in *. intros l Hl. split; auto.
Qed.

(** [wrap_text_segment] is the case of equal prefixes. *)
Lemma segment_loop_eq : forall p ls result first,
  segment_loop U result ls p lw = first_segment_loop U result first ls p p lw.
Proof.
  intros p. induction ls as [|l r IH]; intros result first; auto. cbn [segment_loop first_segment_loop].
  replace (if first then p else p) with p by (destruct first; reflexivity).
  destruct (_ <=? lw); auto.
Qed.
Lemma wrap_text_segment_eq : forall s p, wrap_text_segment U s p lw = wrap_text_first_line_segment U s p p lw.
Proof.
  intros. unfold wrap_text_segment, wrap_text_first_line_segment. destruct (split_on c_nul s) as [|a [|b r]]; auto.
  apply segment_loop_eq.
Qed.
End Seg.

(** ** Whole texts *)
Section Text.
Variable U : Uni.
Variable W : width_laws U.
Variable lw : nat.

Lemma hard_loop_eq : forall p segs result, segs <> [] ->
  hard_loop U result true segs p lw = result ++ join hard_break (map (fun s => wrap_text_segment U s p lw) segs)
  /\ hard_loop U result false segs p lw
     = result ++ hard_break ++ join hard_break (map (fun s => wrap_text_segment U s p lw) segs).
Proof.
  intros p. induction segs as [|s r IH]; intros result H; [congruence|]. cbn [hard_loop map].
  destruct r as [|s2 r].
  - cbn [hard_loop map join]. rewrite <- !app_assoc. auto.
  - assert (N : s2 :: r <> []) by discriminate.
    rewrite (proj2 (IH (result ++ wrap_text_segment U s p lw) N)).
    rewrite (proj2 (IH ((result ++ hard_break) ++ wrap_text_segment U s p lw) N)).
    cbn [map]. rewrite !join_cons, <- !app_assoc. auto.
Qed.
Lemma wrap_text_eq : forall t p,
  wrap_text U t p lw = join hard_break (map (fun s => wrap_text_segment U s p lw) (segments t)).
Proof.
  intros t p. unfold wrap_text, segments. destruct (split_on c_nl t) as [|a [|b r]] eqn:E.
  - exfalso. eapply split_on_nonempty; eauto.
  - cbn. f_equal. rewrite <- (join_split_on c_nl t), E. reflexivity.
  - apply (hard_loop_eq p (a :: b :: r) []). discriminate.
Qed.

Lemma first_hard_loop_false : forall fp cp segs result,
  first_hard_loop U result false segs fp cp lw
  = result ++ flat_map (fun s => hard_break ++ cp ++ wrap_text_first_line_segment U s [] cp lw) segs.
Proof.
  intros fp cp. induction segs as [|s r IH]; intro result; cbn [first_hard_loop flat_map]; [rewrite app_nil_r; auto|].
  rewrite IH, <- !app_assoc. reflexivity.
Qed.
Lemma wrap_text_first_line_eq : forall t fp cp s r, segments t = s :: r ->
  wrap_text_first_line U t fp cp lw
  = join hard_break (wrap_text_first_line_segment U s fp cp lw
                     :: map (fun s => cp ++ wrap_text_first_line_segment U s [] cp lw) r).
Proof.
  intros t fp cp s r E. unfold wrap_text_first_line. unfold segments in E. rewrite E.
  assert (F : forall r x, x ++ flat_map (fun s => hard_break ++ cp ++ wrap_text_first_line_segment U s [] cp lw) r
     = join hard_break (x :: map (fun s => cp ++ wrap_text_first_line_segment U s [] cp lw) r)).
  { clear. induction r as [|s r IH]; intro x; cbn [flat_map map]; [cbn; apply app_nil_r|].
    rewrite join_cons, <- IH, <- !app_assoc. reflexivity. }
  destruct r as [|s2 r].
  - cbn. f_equal. rewrite <- (join_split_on c_nl t), E. reflexivity.
  - cbn [first_hard_loop]. rewrite first_hard_loop_false. cbn [app]. rewrite <- F. cbn [flat_map]. rewrite <- !app_assoc. reflexivity.
Qed.

(** Text that fits is kept. *)
Section Fit.
Variables fp cp : str.
Hypothesis Sf : spaced fp.

Definition inv2 (used : str) (s : wst) : Prop :=
  w_result s = [] /\ w_first s = true /\ w_line s ++ w_token s ++ w_spaces s = fp ++ used
  /\ (w_line s = fp \/ ends_sp (w_line s) /\ exists b, w_line s = fp ++ b /\ ends_sp b)
  /\ Forall (fun c => c = c_sp) (w_spaces s)
  /\ (w_spaces s <> [] -> w_bt s = false /\ w_depth s = 0) /\ (w_token s = [] -> used = []).

Lemma add_fit : forall used s sps rest, inv2 used s -> Forall (fun c => c = c_sp) sps ->
  w_line s ++ w_token s ++ sps ++ rest = fp ++ used ++ rest -> (sps <> [] \/ rest = []) ->
  u_width U (fp ++ used ++ rest) <= lw ->
  add_token U (w_result s) (w_line s) (w_token s) sps (u_width U fp) cp lw (w_first s)
  = (w_result s, w_line s ++ w_token s ++ sps, true).
Proof.
  intros used s sps rest (I1 & I2 & I3 & I4 & I5 & I6 & I7) Hs E Hr Hw. unfold add_token. rewrite I2.
  destruct I4 as [I4|[[x Hx] [b [Hb [y Hy]]]]].
  - rewrite I4, Nat.eqb_refl. reflexivity.
  - destruct (u_width U (w_line s) =? u_width U fp); auto.
    assert (Hle : u_width U (w_line s ++ w_token s ++ sps) <= u_width U (fp ++ used ++ rest)).
    { rewrite <- E. destruct Hr as [Hr| ->]; [|rewrite app_nil_r; lia].
      destruct (exists_last Hr) as [sps' [z Hz]].
      assert (z = c_sp) by (rewrite Hz in Hs; apply Forall_app in Hs; destruct Hs as [_ Hs]; inversion Hs; auto). subst z sps.
      replace (w_line s ++ w_token s ++ (sps' ++ [c_sp]) ++ rest) with ((w_line s ++ w_token s ++ sps') ++ c_sp :: rest)
        by (rewrite <- !app_assoc; reflexivity).
      replace (w_line s ++ w_token s ++ sps' ++ [c_sp]) with ((w_line s ++ w_token s ++ sps') ++ c_sp :: [])
        by (rewrite <- !app_assoc; reflexivity).
      rewrite !(width_sp U W), (width_nil U W). lia. }
    rewrite app_assoc, (width_sps U W) in Hle by auto.
    rewrite byte_len_sps by auto. rewrite Hx in *. rewrite <- app_assoc in Hle. cbn [app] in Hle.
    rewrite (width_sp U W) in Hle. rewrite (width_sp U W), (width_nil U W).
    replace (_ <=? lw) with true; auto. symmetry. apply Nat.leb_le. lia.
Qed.

Lemma flush_push_fit : forall used s rest c bt d, inv2 used s -> w_bt s = false -> w_depth s = 0 ->
  u_width U (fp ++ used ++ c :: rest) <= lw ->
  inv2 (used ++ [c]) (push_char c bt d (flush_token U (u_width U fp) cp lw s)).
Proof.
  intros used s rest c bt d I Hb Hd Hw. unfold flush_token.
  destruct (is_nil (w_token s)) eqn:Nt; [|destruct (is_nil (w_spaces s)) eqn:Ns]; cbn [negb andb].
  - apply is_nil_true in Nt. destruct I as (I1 & I2 & I3 & I4 & I5 & I6 & I7). specialize (I7 Nt). subst used.
    rewrite Nt, app_nil_r in I3. cbn in I3.
    assert (w_spaces s = [] /\ w_line s = fp) as [Es El].
    { destruct I4 as [I4|[_ (b & I4 & y & Hy)]].
      - rewrite I4 in I3. rewrite <- (app_nil_r fp) in I3 at 2. apply app_inv_head in I3. auto.
      - exfalso. rewrite I4, Hy in I3. rewrite <- (app_nil_r fp) in I3 at 2. rewrite <- app_assoc in I3. apply app_inv_head in I3.
        apply (f_equal (@List.length _)) in I3. rewrite !app_length in I3. cbn in I3. lia. }
    unfold inv2, push_char; cbn [w_result w_line w_first w_token w_spaces w_bt w_depth]. rewrite Nt, Es, El.
    repeat split; auto; try congruence.
  - apply is_nil_true in Ns. destruct I as (I1 & I2 & I3 & I4 & I5 & I6 & I7).
    unfold inv2, push_char; cbn [w_result w_line w_first w_token w_spaces w_bt w_depth]. rewrite Ns in *.
    repeat split; auto; try congruence.
    + rewrite app_nil_r in *. rewrite app_assoc, I3, <- app_assoc. reflexivity.
    + intro K. destruct (w_token s); discriminate.
  - apply is_nil_false in Nt. apply is_nil_false in Ns.
    rewrite (add_fit used s (w_spaces s) (c :: rest)); auto; try apply I.
    2:{ destruct I as (_ & _ & I3 & _). rewrite (app_assoc fp), <- I3, <- !app_assoc. reflexivity. }
    destruct I as (I1 & I2 & I3 & I4 & I5 & I6 & I7).
    unfold inv2, push_char; cbn [w_result w_line w_first w_token w_spaces w_bt w_depth].
    repeat split; auto; try congruence.
    + cbn [app]. rewrite I3, <- app_assoc. reflexivity.
    + destruct (exists_last Ns) as [sp' [z Hz]].
      assert (z = c_sp) by (rewrite Hz in I5; apply Forall_app in I5; destruct I5 as [_ I5]; inversion I5; auto). subst z.
      right. rewrite Hz. split.
      * exists (w_line s ++ w_token s ++ sp'). rewrite <- !app_assoc. reflexivity.
      * destruct I4 as [I4|[_ (b & I4 & _)]]; rewrite I4.
        -- exists (w_token s ++ sp' ++ [c_sp]). split; auto. exists (w_token s ++ sp'). rewrite <- app_assoc. reflexivity.
        -- exists (b ++ w_token s ++ sp' ++ [c_sp]). split; [rewrite <- !app_assoc; reflexivity|].
           exists (b ++ w_token s ++ sp'). rewrite <- !app_assoc. reflexivity.
    + intro K. discriminate.
Qed.
Lemma push_fit : forall used s c bt d, inv2 used s -> (w_bt s, w_depth s) <> (false, 0) ->
  inv2 (used ++ [c]) (push_char c bt d s).
Proof.
  intros used s c bt d (I1 & I2 & I3 & I4 & I5 & I6 & I7) Hn.
  assert (Es : w_spaces s = []).
  { destruct (w_spaces s) eqn:E; auto. exfalso. apply Hn. destruct I6 as [-> ->]; [discriminate|reflexivity]. }
  unfold inv2, push_char; cbn [w_result w_line w_first w_token w_spaces w_bt w_depth]. rewrite Es in *.
  repeat split; auto; try congruence.
  - rewrite app_nil_r in *. rewrite app_assoc, I3, <- app_assoc. reflexivity.
  - intro K. destruct (w_token s); discriminate.
Qed.
Lemma step_fit : forall used s rest c, (used = [] -> c <> c_sp) -> inv2 used s ->
  u_width U (fp ++ used ++ c :: rest) <= lw -> inv2 (used ++ [c]) (wrap_step U (u_width U fp) cp lw s c).
Proof.
  intros used s rest c Hl I Hw. unfold wrap_step.
  destruct (w_depth s) as [|d] eqn:Hd; [destruct (w_bt s) eqn:Hb|].
  - assert (Hn : (w_bt s, w_depth s) <> (false, 0)) by (rewrite Hb; discriminate).
    destruct (ceq c c_bt && (0 =? 0)); apply push_fit; auto.
  - cbn [Nat.eqb Nat.ltb Nat.leb]. rewrite !andb_false_r, andb_true_r.
    destruct (ceq c c_bt); [eapply flush_push_fit; eauto|].
    destruct (ceq c c_lbr); [eapply flush_push_fit; eauto|].
    destruct (ceq_spec c c_sp) as [->|Hs]; [|eapply flush_push_fit; eauto].
    destruct I as (I1 & I2 & I3 & I4 & I5 & I6 & I7).
    unfold inv2; cbn [w_result w_line w_first w_token w_spaces w_bt w_depth]. repeat split; auto.
    + rewrite (app_assoc fp), <- I3, <- !app_assoc. reflexivity.
    + apply Forall_app; auto.
    + intro K. exfalso. apply Hl; auto.
  - assert (Hn : (w_bt s, w_depth s) <> (false, 0)) by (rewrite Hd; destruct (w_bt s); discriminate).
    pose proof (fun bt d => push_fit used s c bt d I Hn) as P. clear Hn.
    cbn [Nat.eqb Nat.ltb Nat.leb]. rewrite andb_false_r, andb_true_r.
    destruct (w_bt s); [apply P|]. destruct (ceq c c_lbr); [apply P|].
    destruct (ceq c c_rbr); apply P.
Qed.
Lemma fold_fit : forall text used s, no_lead (used ++ text) -> inv2 used s ->
  u_width U (fp ++ used ++ text) <= lw -> inv2 (used ++ text) (fold_left (wrap_step U (u_width U fp) cp lw) text s).
Proof.
  induction text as [|c text IH]; intros used s Hl I Hw; cbn [fold_left]; [rewrite app_nil_r; auto|].
  replace (used ++ c :: text) with ((used ++ [c]) ++ text) in * by (rewrite <- app_assoc; reflexivity).
  apply IH; auto. eapply step_fit; eauto.
  - intros -> ->. apply (Hl text). reflexivity.
  - rewrite <- app_assoc in Hw. exact Hw.
Qed.
Lemma single_fit : forall text, no_lead text -> trim_end (fp ++ text) = fp ++ text ->
  u_width U fp + u_width U text <= lw -> wrap_single_segment U text fp cp lw = fp ++ text.
Proof.
  intros text Hl Ht Hw.
  assert (I : inv2 text (fold_left (wrap_step U (u_width U fp) cp lw) text (mkW [] fp true [] [] false 0))).
  { apply (fold_fit text []); auto.
    - repeat split; cbn; auto; try congruence.
    - cbn. rewrite (width_spaced U W); auto. }
  unfold wrap_single_segment. cbv zeta. set (s := fold_left _ _ _) in *.
  assert (Hs : w_spaces s = []).
  { destruct I as (I1 & I2 & I3 & I4 & I5 & I6 & I7). destruct (w_spaces s) as [|y ys] eqn:E; auto. exfalso.
    assert (Hy : y :: ys <> []) by discriminate. destruct (exists_last Hy) as [ys' [z Hz]]. rewrite Hz in *.
    assert (z = c_sp) by (apply Forall_app in I5; destruct I5 as [_ I5]; inversion I5; auto). subst z.
    rewrite <- I3 in Ht. rewrite !app_assoc in Ht. rewrite trim_end_snoc_ws in Ht by reflexivity.
    destruct (trim_end_app ((w_line s ++ w_token s) ++ ys')) as [t [Et _]].
    rewrite Ht in Et. apply (f_equal (@List.length _)) in Et. rewrite !app_length in Et. cbn in Et. lia. }
  assert (E : forall l, l = fp ++ text -> (if negb (is_nil (trim_end l)) then [] ++ trim_end l else []) = fp ++ text).
  { intros l ->. rewrite Ht. destruct (fp ++ text); reflexivity. }
  destruct (is_nil (w_token s)) eqn:Nt; cbn [negb].
  - apply is_nil_true in Nt. destruct I as (I1 & I2 & I3 & _). rewrite I1. apply E.
    rewrite Nt, Hs, !app_nil_r in I3. exact I3.
  - rewrite (add_fit text s [] []); auto.
    + destruct I as (I1 & I2 & I3 & _). rewrite I1. apply E. rewrite Hs in I3. exact I3.
    + destruct I as (I1 & I2 & I3 & _). rewrite Hs in I3. rewrite !app_nil_r in *. exact I3.
    + rewrite app_nil_r, (width_spaced U W); auto.
Qed.

(** Kept source lines of a segment. *)
Lemma kept_nonempty : forall p l, trimmed l -> is_nil (p ++ l) = false.
Proof. intros p l [_ H]. apply is_nil_false. intro K. apply app_eq_nil in K. tauto. Qed.

Lemma push_nl_some : forall x, is_nil x = false -> push_nl x = x ++ [c_nl].
Proof. intros x H. unfold push_nl. rewrite H. reflexivity. Qed.
Lemma first_loop_kept : forall rest ls first result,
  Forall trimmed ls -> (forall l, In l ls -> u_width U fp + u_width U l <= lw /\ u_width U cp + u_width U l <= lw) ->
  ls <> [] ->
  first_segment_loop U result first (ls ++ rest) fp cp lw
  = first_segment_loop U (push_nl result ++
      join [c_nl] (match ls with [] => [] | l :: r => ((if first then fp else cp) ++ l) :: map (app cp) r end))
      false rest fp cp lw.
Proof.
  intros rest. induction ls as [|l r IH]; intros first result K Hf Hne; [congruence|].
  inversion K as [|? ? [Kt Kn] K']; subst. cbn [app first_segment_loop]. rewrite Kt.
  destruct (Hf l (or_introl eq_refl)) as [H1 H2].
  replace (u_width U (if first then fp else cp) + u_width U l <=? lw) with true
    by (symmetry; apply Nat.leb_le; destruct first; auto).
  destruct r as [|l2 r].
  - cbn [map join]. reflexivity.
  - rewrite (IH false); auto; [|intros x Hx; apply Hf; right; auto|discriminate].
    cbn [map]. f_equal.
    assert (N : is_nil (push_nl result ++ (if first then fp else cp) ++ l) = false).
    { rewrite app_assoc. apply kept_nonempty. split; auto. }
    etransitivity; [apply (f_equal (fun z => z ++ _)); exact (push_nl_some _ N)|].
    rewrite join_cons, <- !app_assoc. reflexivity.
Qed.
End Fit.
End Text.
