(** Lemmas for [PropsCli]. *)
From Coq Require Import Bool Arith NArith Lia Wf_nat String Sorted Permutation List.
From Verif Require Import Base BaseFacts CliModel SpecCli.
Import ListNotations.

Lemma fs_set_same : forall fs p n, fs_set fs p n p = n.
Proof. intros. unfold fs_set. now rewrite seqb_refl. Qed.
Lemma fs_set_other : forall fs p n q, q <> p -> fs_set fs p n q = fs q.
Proof. intros. unfold fs_set. now rewrite (proj2 (seqb_false q p) H). Qed.

(** * Check mode *)
Section Check.
Variable fmt : str -> option str.
Variable write : bool.
Variable fs0 : fsys.
Variable files : list path.

Definition check_ok (e u : bool) (pt : path * task) : Prop :=
  In (fst pt) files /\
  match snd pt with
  | TStart => True
  | TRead s => fs0 (fst pt) = Text s
  | TWriting _ _ => False
  | TDone => e = true \/ u = true \/ ~ unclean fmt fs0 (fst pt)
  end.

Definition check_inv (w : world) : Prop :=
  w_fs w = fs0 /\ w_opened w = [] /\ w_printed w = [] /\
  map fst (w_tasks w) = files /\
  Forall (check_ok (w_error w) (w_unformatted w)) (w_tasks w) /\
  (w_error w || w_unformatted w = true -> exists p, In p files /\ unclean fmt fs0 p).

Lemma check_ok_mono : forall e u e' u' pt,
  check_ok e u pt -> check_ok (e || e') (u || u') pt.
Proof.
  intros e u e' u' [p t] [H1 H2]. split; [exact H1|]. cbn in *.
  destruct t; auto. destruct H2 as [->|[->|H]]; cbn; auto.
Qed.

Lemma check_inv_step : forall w w', check_inv w -> step fmt write true w w' -> check_inv w'.
Proof.
  intros w w' (Hfs & Ho & Hp & Hm & Hf & Hc) Hs. destruct Hs as [fs l p t r e u pr op fl t' fs' ef Ht].
  cbn in *. subst fs op pr.
  apply Forall_app in Hf as [Hl Hr]. inversion Hr as [|? ? Hpt Hr']; subst. clear Hr.
  assert (Hfr : forall e' u', Forall (check_ok (e || e') (u || u')) l /\ Forall (check_ok (e || e') (u || u')) r).
  { intros. split; eapply Forall_impl; try eassumption; intros; now apply check_ok_mono. }
  destruct Hpt as [Hin Hpt]. cbn in Hin, Hpt.
  assert (Hmap : forall t2, map fst (l ++ (p, t2) :: r) = files).
  { intros. rewrite <- Hm, !map_app. reflexivity. }
  assert (Hdone : forall e' u' t2, check_ok (e || e') (u || u') (p, t2) ->
      Forall (check_ok (e || e') (u || u')) (l ++ (p, t2) :: r)).
  { intros. apply Forall_app. destruct (Hfr e' u') as [A B]. split; auto. }
  inversion Ht; subst; unfold check_inv; cbn;
    try (repeat split; auto; fail);
    try contradiction; try discriminate.
  - repeat split; auto; [apply Hdone; split; cbn; auto|]. rewrite !orb_false_r. auto.
  - assert (unclean fmt fs0 p) as Hu.
    { unfold unclean. destruct (fs0 p) eqn:E; auto. exfalso. eapply H; eauto. }
    repeat split; auto; [apply Hdone; split; cbn; [auto|left; now rewrite orb_true_r]|]. eauto.
  - assert (unclean fmt fs0 p) as Hu.
    { unfold unclean. rewrite Hpt, H. discriminate. }
    repeat split; auto; [apply Hdone; split; cbn; [auto|left; now rewrite orb_true_r]|]. eauto.
  - repeat split; auto; [apply Hdone; split; cbn; [auto|do 2 right]|].
    + unfold unclean. rewrite Hpt. intros X. now apply X.
    + rewrite !orb_false_r. auto.
  - assert (unclean fmt fs0 p) as Hu.
    { unfold unclean. rewrite Hpt, H0. congruence. }
    repeat split; auto; [apply Hdone; split; cbn; [auto|right; left; now rewrite orb_true_r]|]. eauto.
Qed.

Lemma check_inv_steps : forall w, steps fmt write true (start fs0 files) w -> check_inv w.
Proof.
  intros w H. remember (start fs0 files) as w0. induction H; subst.
  - unfold check_inv, start; cbn. repeat split; auto.
    + rewrite map_map. cbn. now rewrite map_id.
    + apply Forall_forall. intros x Hx. apply in_map_iff in Hx as (q & <- & Hq). split; cbn; auto.
    + discriminate.
  - eapply check_inv_step; eauto.
Qed.
End Check.

(** * Write mode *)
Section Write.
Variable fmt : str -> option str.
Variable fs0 : fsys.
Variable files : list path.

(** State of one file, given what its worker has done. *)
Definition write_ok (e : bool) (fs : fsys) (pr op fl : list path) (p : path) (t : task) : Prop :=
  match t with
  | TStart => fs p = fs0 p /\ ~ In p op /\ ~ In p pr /\ ~ In p fl
  | TRead s => fs0 p = Text s /\ fs p = Text s /\ ~ In p op /\ ~ In p pr /\ ~ In p fl
  | TWriting out n => exists s, fs0 p = Text s /\ fmt s = Some out /\ s <> out /\
      n <= List.length out /\ fs p = Text (firstn n out) /\ In p op /\ ~ In p pr /\ ~ In p fl
  | TDone =>
      (unprocessable fmt fs0 p /\ e = true /\ fs p = fs0 p /\ ~ In p op /\ ~ In p pr /\ ~ In p fl)
      \/ (exists s, fs0 p = Text s /\ fmt s = Some s /\ fs p = Text s /\ ~ In p op /\ ~ In p pr /\ ~ In p fl)
      \/ (exists s out, fs0 p = Text s /\ fmt s = Some out /\ s <> out /\ fs p = Text out /\ In p op /\ In p pr /\ ~ In p fl)
      \/ (changes fmt fs0 p /\ e = true /\ In p fl /\ ~ In p pr /\
          ((fs p = fs0 p /\ ~ In p op) \/
           (In p op /\ exists s out n, fs0 p = Text s /\ fmt s = Some out /\ fs p = Text (firstn n out))))
  end.

Definition write_inv (w : world) : Prop :=
  map fst (w_tasks w) = files /\ NoDup files /\
  (forall p t, In (p, t) (w_tasks w) ->
     write_ok (w_error w) (w_fs w) (w_printed w) (w_opened w) (w_failed w) p t) /\
  (forall p, ~ In p files -> w_fs w p = fs0 p /\ ~ In p (w_opened w) /\
     ~ In p (w_printed w) /\ ~ In p (w_failed w)) /\
  (w_error w = true -> exists p, In p files /\ (unprocessable fmt fs0 p \/ In p (w_failed w))) /\
  w_unformatted w = false.

Lemma write_ok_frame : forall e fs pr op fl e' fs' pr' op' fl' p t,
  write_ok e fs pr op fl p t ->
  (e = true -> e' = true) -> fs' p = fs p -> (In p pr' <-> In p pr) -> (In p op' <-> In p op) ->
  (In p fl' <-> In p fl) -> write_ok e' fs' pr' op' fl' p t.
Proof.
  intros e fs pr op fl e' fs' pr' op' fl' p t H He Hf Hp Ho Hl.
  destruct t; cbn in *; rewrite Hf, ?Hp, ?Ho, ?Hl; auto.
  - destruct H as (s & H). exists s. now rewrite Hp, Ho, Hl.
  - destruct H as [H|[H|[H|H]]].
    + left. tauto.
    + right; left. destruct H as (s & H). exists s. now rewrite Hp, Ho, Hl.
    + do 2 right; left. destruct H as (s & o & H). exists s, o. now rewrite Hp, Ho, Hl.
    + do 3 right. tauto.
Qed.

Lemma step_effects : forall c fs p t t' fs' ef, task_step fmt true c fs p t t' fs' ef ->
  (forall q, q <> p -> fs' q = fs q) /\
  (forall q, In q (e_printed ef) -> q = p) /\ (forall q, In q (e_opened ef) -> q = p) /\
  (forall q, In q (e_failed ef) -> q = p).
Proof.
  intros c fs p t t' fs' ef H. destruct H; cbn; repeat split; intros; auto;
    try contradiction; try (now apply fs_set_other); intuition.
Qed.

Lemma firstn_full : forall (l : str), firstn (List.length l) l = l.
Proof. intros. apply firstn_all. Qed.

Lemma write_inv_step : forall w w', write_inv w -> step fmt true false w w' -> write_inv w'.
Proof.
  intros w w' (Hm & Hnd & Hok & Hout & He & Hu) Hs.
  destruct Hs as [fs l p t r e u pr op fl t' fs' ef Ht]. cbn in *. subst u.
  pose proof (step_effects _ _ _ _ _ _ _ Ht) as (E1 & E2 & E3 & E4).
  assert (Hpf : In p files). { rewrite <- Hm, map_app. apply in_or_app. right. now left. }
  assert (Hm' : map fst (l ++ (p, t') :: r) = files).
  { rewrite <- Hm, !map_app. reflexivity. }
  assert (Hne : forall q t2, In (q, t2) l \/ In (q, t2) r -> q <> p).
  { rewrite <- Hm, map_app in Hnd. cbn in Hnd. apply NoDup_remove_2 in Hnd.
    intros q t2 Hq ->. apply Hnd. apply in_or_app. destruct Hq as [Hq|Hq]; [left|right];
    apply in_map_iff; exists (p, t2); auto. }
  assert (Hiff : forall (l1 l2 : list path) q, (forall x, In x l2 -> x = p) -> q <> p -> (In q (l1 ++ l2) <-> In q l1)).
  { intros l1 l2 q Hl Hq. rewrite in_app_iff. split; auto. intros [H|H]; auto. apply Hl in H. contradiction. }
  assert (Hothers : forall q t2, In (q, t2) l \/ In (q, t2) r ->
     write_ok (e || e_error ef) fs' (pr ++ e_printed ef) (op ++ e_opened ef) (fl ++ e_failed ef) q t2).
  { intros q t2 Hq. pose proof (Hne q t2 Hq) as Hqp.
    eapply write_ok_frame; [apply Hok; apply in_or_app; destruct Hq; [left|right; right]; eauto| | | | |]; auto.
    intros ->. reflexivity. }
  assert (Hp : write_ok e fs pr op fl p t). { apply Hok. apply in_or_app. right. now left. }
  assert (Hunp : (forall s, fs0 p = Text s -> fmt s = None) -> unprocessable fmt fs0 p).
  { intros H. unfold unprocessable. destruct (fs0 p); auto. }
  assert (Key : write_ok (e || e_error ef) fs' (pr ++ e_printed ef) (op ++ e_opened ef) (fl ++ e_failed ef) p t' /\
     (e_error ef = true -> unprocessable fmt fs0 p \/ In p (fl ++ e_failed ef)) /\ e_unformatted ef = false).
  { inversion Ht; subst; cbn in *; rewrite ?app_nil_r; rewrite ?orb_false_r, ?orb_true_r; try discriminate.
    - destruct Hp as (A & B & C & D). rewrite <- A. repeat split; auto. discriminate.
    - destruct Hp as (A & B & C & D).
      assert (unprocessable fmt fs0 p) by (apply Hunp; intros s Hs; exfalso; eapply H; rewrite A; eauto).
      repeat split; auto. left. auto 10.
    - destruct Hp as (A & B & C & D & E).
      assert (unprocessable fmt fs0 p) by (apply Hunp; intros s2 Hs; congruence).
      repeat split; auto. left. rewrite B, A. auto 10.
    - destruct Hp as (A & B & C & D & E). destruct H1 as [H1|H1]; [discriminate|]. subst out.
      repeat split; auto; [|discriminate]. right; left. exists s. auto 10.
    - destruct Hp as (A & B & C & D & E). repeat split; auto; [|discriminate].
      exists s. rewrite fs_set_same. repeat split; auto; [lia|]. apply in_or_app. right. now left.
    - destruct Hp as (A & B & C & D & E). assert (In p (fl ++ [p])) by (apply in_or_app; right; now left).
      repeat split; auto. do 3 right. rewrite B, A. repeat split; auto. exists s, out; auto.
    - destruct Hp as (s & A & B & C & D & E & F & G & I). repeat split; auto; [|discriminate].
      exists s. rewrite fs_set_same. repeat split; auto.
    - destruct Hp as (s & A & B & C & D & E & F & G & I).
      assert (In p (fl ++ [p])) by (apply in_or_app; right; now left).
      repeat split; auto. do 3 right. repeat split; auto; [exists s, out; auto|]. right. split; auto. exists s, out, n; auto.
    - destruct Hp as (s & A & B & C & D & E & F & G & I). repeat split; auto; [|discriminate].
      rewrite firstn_full in E. do 2 right; left. exists s, out. repeat split; auto. apply in_or_app; right; now left. }
  destruct Key as (K1 & K2 & K3).
  unfold write_inv; cbn. repeat split; auto.
  - intros q t2 Hq. apply in_app_or in Hq as [Hq|[Hq|Hq]]; auto. now inversion Hq; subst.
  - rewrite E1; [|intros ->; contradiction]. now apply Hout.
  - rewrite (Hiff op _ p0) by (auto; intros ->; contradiction). now apply Hout.
  - rewrite (Hiff pr _ p0) by (auto; intros ->; contradiction). now apply Hout.
  - rewrite (Hiff fl _ p0) by (auto; intros ->; contradiction). now apply Hout.
  - intros H. apply orb_true_iff in H as [H|H].
    + destruct (He H) as (q & Hq & Hq'). exists q. split; auto. destruct Hq'; auto. right. apply in_or_app. now left.
    + exists p. auto.
Qed.

Lemma write_inv_steps : forall w, NoDup files -> steps fmt true false (start fs0 files) w -> write_inv w.
Proof.
  intros w Hnd H. remember (start fs0 files) as w0. induction H; subst.
  - unfold write_inv, start; cbn. split; [|split; [auto|split; [|split; [|split; [|auto]]]]].
    + rewrite map_map. cbn. now rewrite map_id.
    + intros p t Hp. apply in_map_iff in Hp as (q & E & Hq). inversion E; subst. cbn. auto.
    + auto.
    + discriminate.
  - eapply write_inv_step; eauto.
Qed.
End Write.

(** * Every run comes to an end *)
Section Finish.
Variable fmt : str -> option str.
Variable write check : bool.

Definition fresh (t : task) : nat := match t with TStart => 1 | _ => 0 end.
Definition left_ (t : task) : nat :=
  match t with
  | TStart | TDone => 0
  | TRead s => 3 + match fmt s with Some out => List.length out | None => 0 end
  | TWriting out n => 1 + (List.length out - n)
  end.
Definition total (f : task -> nat) (l : list (path * task)) : nat := list_sum (map (fun x => f (snd x)) l).

Lemma total_app : forall f l p t r, total f (l ++ (p, t) :: r) = total f l + f t + total f r.
Proof. intros. unfold total. rewrite map_app, list_sum_app. cbn [map snd list_sum fold_right].
  change (fold_right Nat.add 0 (map (fun x => f (snd x)) r)) with (list_sum (map (fun x => f (snd x)) r)). lia. Qed.

Lemma task_measure : forall fs p t t' fs' ef, task_step fmt write check fs p t t' fs' ef ->
  fresh t' < fresh t \/ (fresh t' = fresh t /\ left_ t' < left_ t).
Proof.
  intros fs p t t' fs' ef H. destruct H; cbn [fresh left_]; try lia.
  rewrite H1. lia.
Qed.

Lemma step_acc : forall a b w, total fresh (w_tasks w) <= a -> total left_ (w_tasks w) <= b ->
  Acc (fun w2 w1 => step fmt write check w1 w2) w.
Proof.
  induction a as [a IHa] using lt_wf_ind. induction b as [b IHb] using lt_wf_ind.
  intros w Ha Hb. constructor. intros w' Hs.
  destruct Hs as [fs l p t r e u pr op fl t' fs' ef Ht]. cbn [w_tasks] in Ha, Hb.
  rewrite total_app in Ha, Hb.
  destruct (task_measure _ _ _ _ _ _ Ht) as [H|[H1 H2]].
  - eapply (IHa (total fresh l + fresh t' + total fresh r)); [lia| |reflexivity]. cbn [w_tasks]. now rewrite total_app.
  - apply (IHb (total left_ l + left_ t' + total left_ r)); [lia| |]; cbn [w_tasks]; rewrite total_app; lia.
Qed.

Definition str_eq_dec : forall a b : str, {a = b} + {a <> b} := list_eq_dec N.eq_dec.

Lemma task_progress : forall fs p t, t <> TDone ->
  (forall out n, t = TWriting out n -> n <= List.length out) ->
  exists t' fs' ef, task_step fmt write check fs p t t' fs' ef.
Proof.
  intros fs p t Hd Hn. destruct t as [|s|out n|]; [| | |contradiction].
  - destruct (fs p) eqn:E.
    + exists TDone, fs, error. constructor 2. intros s; rewrite E; discriminate.
    + exists TDone, fs, error. constructor 2. intros s; rewrite E; discriminate.
    + exists (TRead content), fs, quiet. now constructor 1.
  - destruct (fmt s) as [out|] eqn:E.
    + destruct check eqn:Ec; [|destruct write eqn:Ew].
      * destruct (str_eq_dec s out) as [<-|Hne].
        -- do 3 eexists. now eapply step_check_same.
        -- do 3 eexists. now eapply step_check_differs; eauto.
      * destruct (str_eq_dec s out) as [<-|Hne].
        -- do 3 eexists. eapply step_skip; eauto.
        -- do 3 eexists. eapply step_open; eauto.
      * do 3 eexists. eapply step_skip; eauto.
    + do 3 eexists. now eapply step_format_error.
  - do 3 eexists. eapply step_write_error.
Qed.

Lemma unfinished : forall l : list (path * task), Forall (fun pt => snd pt = TDone) l \/
  exists a p t b, l = a ++ (p, t) :: b /\ t <> TDone.
Proof.
  induction l as [|[p t] l IH]; [now left|].
  destruct t; try (right; exists [], p; eexists; exists l; split; [reflexivity|discriminate]).
  destruct IH as [IH|(a & p' & t & b & -> & H)].
  - left. constructor; auto.
  - right. exists ((p, TDone) :: a), p', t, b. auto.
Qed.

(** [n <= length out] while writing. *)
Definition bounded (w : world) : Prop :=
  Forall (fun pt => forall out n, snd pt = TWriting out n -> n <= List.length out) (w_tasks w).
Lemma bounded_step : forall w w', bounded w -> step fmt write check w w' -> bounded w'.
Proof.
  intros w w' Hb Hs. destruct Hs as [fs l p t r e u pr op fl t' fs' ef Ht]. unfold bounded in *; cbn in *.
  apply Forall_app in Hb as [Hl Hr]. inversion Hr; subst. apply Forall_app. split; auto. constructor; auto.
  cbn. intros out n E. subst t'. inversion Ht; subst; lia.
Qed.
Lemma bounded_steps : forall fs files w, steps fmt write check (start fs files) w -> bounded w.
Proof.
  intros fs files w H. remember (start fs files) as w0. induction H; subst.
  - unfold bounded, start; cbn. apply Forall_forall. intros x Hx out n E.
    apply in_map_iff in Hx as (q & <- & _). discriminate.
  - eapply bounded_step; eauto.
Qed.
Lemma progress : forall fs files w, steps fmt write check (start fs files) w ->
  finished w \/ exists w', step fmt write check w w'.
Proof.
  intros fs files w H. destruct (unfinished (w_tasks w)) as [F|(a & p & t & b & E & Ht)]; [now left|right].
  apply bounded_steps in H. unfold bounded in H. rewrite E in H.
  destruct w as [f l e u pr op fl]; cbn in *; subst l.
  destruct (task_progress f p t Ht) as (t' & fs' & ef & Hs).
  { apply Forall_app in H as [_ H]. inversion H; subst. auto. }
  eexists. constructor. exact Hs.
Qed.
End Finish.

(** * In-order processing *)
Lemma in_order_fs : forall fmt show files fs fs' out bad,
  process_in_order fmt show fs files = (fs', out, bad) -> fs' = fs.
Proof.
  induction files as [|p r IH]; intros fs fs' out bad H; cbn in H.
  - now inversion H.
  - destruct (fs p) as [| |s]; try (now inversion H). destruct (fmt s) as [o|]; [|now inversion H].
    destruct (process_in_order fmt show fs r) as [[f2 pr] b] eqn:E. inversion H; subst. eauto.
Qed.

(** * Directory expansion *)
Fixpoint tree_ind2 (P : tree -> Prop) (h1 : P Leaf) (h2 : P Other)
  (h3 : forall es, Forall (fun e => P (snd e)) es -> P (Dir es)) (t : tree) : P t :=
  match t with
  | Leaf => h1
  | Other => h2
  | Dir es => h3 es ((fix go l : Forall (fun e => P (snd e)) l :=
      match l with
      | [] => Forall_nil _
      | e :: r => Forall_cons e (tree_ind2 P h1 h2 h3 (snd e)) (go r)
      end) es)
  end.

Lemma walk_dir : forall here es, walk here (Dir es) = flat_map (fun e => walk (here ++ [fst e]) (snd e)) es.
Proof.
  intros. cbn [walk]. induction es as [|[n t] r IH]; cbn [flat_map fst snd]; [reflexivity|]. now rewrite IH.
Qed.

Lemma walk_in : forall t here p, In p (walk here t) <-> exists q, p = here ++ q /\ file_at t q.
Proof.
  induction t as [| |es IH] using tree_ind2; intros here p.
  - cbn. split.
    + intros [<-|[]]. exists []. split; [now rewrite app_nil_r|constructor].
    + intros (q & -> & H). inversion H. left. now rewrite app_nil_r.
  - cbn. split; [contradiction|]. intros (q & _ & H). inversion H.
  - rewrite walk_dir. rewrite in_flat_map. rewrite Forall_forall in IH. split.
    + intros ([n t] & Hin & Hp). cbn in Hp. apply (IH (n, t) Hin) in Hp as (q & -> & Hq).
      exists (n :: q). rewrite <- app_assoc. split; auto. econstructor; eauto.
    + intros (q & -> & H). inversion H as [|es' n t q' Hin Hq]; subst. exists (n, t). split; auto. cbn.
      apply (IH (n, t) Hin). exists q'. rewrite <- app_assoc. auto.
Qed.

Lemma walk_prefix : forall t here p, In p (walk here t) -> exists q, p = here ++ q.
Proof. intros t here p H. apply walk_in in H as (q & -> & _). eauto. Qed.

Lemma NoDup_app_intro : forall A (a b : list A), NoDup a -> NoDup b -> (forall x, In x a -> In x b -> False) -> NoDup (a ++ b).
Proof.
  induction a as [|x a IH]; intros b Ha Hb H; cbn; auto. inversion Ha; subst. constructor.
  - rewrite in_app_iff. intros [X|X]; [contradiction|]. apply (H x); [now left|auto].
  - apply IH; auto. intros y Hy. apply H. now right.
Qed.

Lemma walk_nodup : forall t here, well_named t -> NoDup (walk here t).
Proof.
  induction t as [| |es IH] using tree_ind2; intros here H.
  - cbn. constructor; [intros []|constructor].
  - constructor.
  - rewrite walk_dir. inversion H as [| |es' Hn Hw]; subst.
    clear H. induction es as [|[n t] r IHr]; cbn; [constructor|].
    inversion IH; subst. cbn in Hn. inversion Hn; subst.
    apply NoDup_app_intro.
    + apply H1. apply (Hw n t). now left.
    + apply IHr; auto. intros m t' Hm. apply (Hw m t'). now right.
    + intros p Hp Hq. cbn in Hp. apply walk_prefix in Hp as (x & ->).
      apply in_flat_map in Hq as ([m t'] & Hm & Hq). cbn in Hq. apply walk_prefix in Hq as (y & Hy).
      rewrite <- !app_assoc in Hy. apply app_inv_head in Hy. inversion Hy; subst.
      apply H3. apply in_map_iff. exists (m, t'). auto.
Qed.

Lemma insert_in : forall p l x, In x (insert_path p l) <-> x = p \/ In x l.
Proof.
  induction l as [|q r IH]; intros x; cbn.
  - intuition.
  - destruct (path_leb p q); cbn; [intuition|]. rewrite IH. intuition.
Qed.
Lemma sort_in : forall l x, In x (sort_paths l) <-> In x l.
Proof. induction l as [|p l IH]; intros x; cbn; [tauto|]. rewrite insert_in, IH. intuition. Qed.
Lemma insert_nodup : forall p l, NoDup (p :: l) -> NoDup (insert_path p l).
Proof.
  induction l as [|q r IH]; intros H; cbn; [auto|]. destruct (path_leb p q); auto.
  inversion H; subst. inversion H3; subst. constructor.
  - rewrite insert_in. intros [->|X]; [|contradiction]. apply H2. now left.
  - apply IH. constructor; auto. intros X; apply H2; now right.
Qed.
Lemma sort_nodup : forall l, NoDup l -> NoDup (sort_paths l).
Proof.
  induction l as [|p l IH]; intros H; cbn; [constructor|]. inversion H; subst. apply insert_nodup. constructor; auto.
  now rewrite sort_in.
Qed.

Lemma take_drop_app : forall (q : char -> bool) a x b, Forall (fun c => q c = true) a -> q x = false ->
  take_while q (a ++ x :: b) = a /\ drop_while q (a ++ x :: b) = x :: b.
Proof.
  induction a as [|c a IH]; intros x b Ha Hx; cbn.
  - rewrite Hx. auto.
  - inversion Ha; subst. rewrite H1. destruct (IH x b H2 Hx) as [-> ->]. auto.
Qed.

Lemma extension_iff : forall name ext, extension name = Some ext <->
  exists stem, name = stem ++ [c_dot] ++ ext /\ stem <> [] /\ Forall (fun c => c <> c_dot) ext.
Proof.
  intros name ext. unfold extension. split.
  - destruct (drop_while not_dot (rev name)) as [|d [|x r]] eqn:E; try discriminate.
    intros H. inversion H; subst. clear H.
    pose proof (drop_while_head _ _ _ _ E) as Hd. unfold not_dot in Hd. apply negb_false_iff, ceq_true in Hd. subst d.
    pose proof (drop_while_app_take not_dot (rev name)) as Hn. rewrite E in Hn.
    exists (rev (x :: r)). split; [|split].
    + generalize dependent (take_while not_dot (rev name)). intros tk Hn.
      transitivity (rev (rev name)); [symmetry; apply rev_involutive|].
      rewrite <- Hn. rewrite rev_app_distr. cbn. now rewrite <- !app_assoc.
    + intros H. apply (f_equal (@rev _)) in H. rewrite rev_involutive in H. discriminate.
    + apply Forall_rev. eapply Forall_impl; [|apply take_while_forall]. cbn. intros c Hc ->. discriminate.
  - intros (stem & -> & Hs & He).
    assert (E : rev (stem ++ [c_dot] ++ ext) = rev ext ++ c_dot :: rev stem).
    { rewrite !rev_app_distr. cbn. now rewrite <- app_assoc. }
    rewrite E.
    destruct (take_drop_app not_dot (rev ext) c_dot (rev stem)) as [-> ->].
    + apply Forall_rev. eapply Forall_impl; [|exact He]. intros c Hc. unfold not_dot. now rewrite (proj2 (ceq_false c c_dot) Hc).
    + reflexivity.
    + destruct (rev stem) eqn:R.
      * exfalso. apply Hs. apply (f_equal (@rev _)) in R. now rewrite rev_involutive in R.
      * now rewrite rev_involutive.
Qed.

Lemma eq_ignore_case_iff : forall a b, eq_ignore_case a b = true <-> map ascii_lower a = map ascii_lower b.
Proof.
  induction a as [|x a IH]; intros [|y b]; cbn; split; intros H; try discriminate; auto.
  - apply andb_true_iff in H as [H1 H2]. apply ceq_true in H1. apply IH in H2. now f_equal.
  - injection H as H1 H2. apply andb_true_iff. split; [now apply ceq_true|]. now apply IH.
Qed.

Lemma lower_no_dot : forall ext, Forall (fun c => c <> c_dot) (map ascii_lower ext) -> Forall (fun c => c <> c_dot) ext.
Proof.
  intros ext H. rewrite Forall_map in H. eapply Forall_impl; [|exact H]. intros c Hc ->. apply Hc. reflexivity.
Qed.

Lemma markdown_iff : forall p, is_markdown p = true <-> markdown_name (last p []).
Proof.
  intros p. unfold is_markdown, markdown_name. generalize (last p []) as name. intros name. split.
  - destruct (extension name) as [ext|] eqn:E; [|discriminate].
    apply extension_iff in E as (stem & -> & Hs & _). intros H. exists stem, ext. split; [reflexivity|split; [auto|]].
    apply orb_true_iff in H as [H|H]; apply eq_ignore_case_iff in H; [left|right]; exact H.
  - intros (stem & ext & E & Hs & He).
    assert (X : extension name = Some ext).
    { apply extension_iff. exists stem. repeat split; auto. apply lower_no_dot.
      destruct He as [-> | ->]; cbn; repeat constructor; discriminate. }
    rewrite X. apply orb_true_iff. destruct He as [He|He]; [left|right]; apply eq_ignore_case_iff; exact He.
Qed.

(** ** The order of the files *)
Lemma lex_trans : forall A (lt : A -> A -> Prop), (forall x y z, lt x y -> lt y z -> lt x z) ->
  forall a b, lex lt a b -> forall c, lex lt b c -> lex lt a c.
Proof.
  intros A lt T. induction 1 as [y b|x y a b H|x a b _ IH]; intros c L; inversion L; subst;
    first [apply lex_nil | solve [apply lex_lt; eauto] | apply lex_eq; eauto].
Qed.
Lemma lex_irrefl : forall A (lt : A -> A -> Prop), (forall x, ~ lt x x) -> forall a, ~ lex lt a a.
Proof. intros A lt I. induction a as [|x a IH]; intro H; inversion H; subst; [exact (I _ H1)|exact (IH H1)]. Qed.
Lemma path_trans : forall a b c, path_lt a b -> path_lt b c -> path_lt a c.
Proof. intros a b c H. apply lex_trans; [|exact H]. intros x y z X. apply lex_trans; [|exact X]. apply N.lt_trans. Qed.
Lemma path_irrefl : forall a, ~ path_lt a a.
Proof. intro a. apply lex_irrefl. intro x. apply lex_irrefl. apply N.lt_irrefl. Qed.

Lemma str_leb_iff : forall a b, str_leb a b = true <-> lex N.lt a b \/ a = b.
Proof.
  induction a as [|x a IH]; intros [|y b]; cbn [str_leb].
  - split; auto.
  - split; [left; constructor|auto].
  - split; [discriminate|intros [H|H]; inversion H].
  - destruct (N.eqb_spec x y) as [->|N].
    + rewrite IH. split; [intros [H| ->]; [left; constructor; exact H|auto]|].
      intros [H|H]; inversion H; subst; [exfalso; eapply N.lt_irrefl; eauto|auto|auto].
    + rewrite N.ltb_lt. split; [left; constructor; exact H|intros [H|H]; inversion H; subst; congruence].
Qed.
Lemma path_leb_iff : forall a b, path_leb a b = true <-> path_lt a b \/ a = b.
Proof.
  induction a as [|x a IH]; intros [|y b]; cbn [path_leb].
  - split; auto.
  - split; [left; constructor|auto].
  - split; [discriminate|intros [H|H]; inversion H].
  - destruct (seqb x y) eqn:E.
    + apply seqb_true in E. subst y. rewrite IH. split; [intros [H| ->]; [left; apply lex_eq; exact H|auto]|].
      intros [H|H]; inversion H; subst; [exfalso; eapply (lex_irrefl _ N.lt N.lt_irrefl); eauto|auto|auto].
    + apply seqb_false in E. rewrite str_leb_iff. split.
      * intros [H|H]; [left; apply lex_lt; exact H|congruence].
      * intros [H|H]; inversion H; subst; try congruence. auto.
Qed.
Lemma str_total : forall a b, str_leb a b = false -> lex N.lt b a.
Proof.
  induction a as [|x a IH]; intros [|y b]; cbn [str_leb]; try discriminate; [intros _; constructor|].
  destruct (N.eqb_spec x y) as [->|N]; intro H; [apply lex_eq; auto|apply lex_lt; apply N.ltb_ge in H; lia].
Qed.
Lemma path_total : forall a b, path_leb a b = false -> path_lt b a.
Proof.
  induction a as [|x a IH]; intros [|y b]; cbn [path_leb]; try discriminate; [intros _; constructor|].
  destruct (seqb x y) eqn:E; intro H; [apply seqb_true in E; subst; apply lex_eq; apply IH; exact H|].
  apply lex_lt, str_total. exact H.
Qed.
Lemma insert_order : forall p l, in_order l -> in_order (insert_path p l).
Proof.
  unfold in_order. induction 1 as [|q r S IH F]; cbn [insert_path].
  - constructor; constructor.
  - destruct (path_leb p q) eqn:E.
    + apply path_leb_iff in E. constructor; [constructor; auto|]. constructor; [exact E|].
      eapply Forall_impl; [|exact F]. cbn. intros x X.
      destruct E as [E| ->]; [|exact X]. left. destruct X as [X| ->]; [eapply path_trans; eauto|exact E].
    + apply path_total in E. constructor; [exact IH|]. rewrite Forall_forall in *. intros x I. apply insert_in in I as [->|I]; auto.
Qed.
Lemma sort_order : forall l, in_order (sort_paths l).
Proof. induction l as [|p l IH]; cbn; [constructor|]. apply insert_order. exact IH. Qed.
Lemma insert_permutation : forall p l, Permutation (insert_path p l) (p :: l).
Proof.
  induction l as [|q r IH]; cbn [insert_path]; [apply Permutation_refl|]. destruct (path_leb p q); [apply Permutation_refl|].
  eapply perm_trans; [apply perm_skip; exact IH|apply perm_swap].
Qed.
Lemma sort_permutation : forall l, Permutation (sort_paths l) l.
Proof.
  induction l as [|p l IH]; cbn; [constructor|]. eapply perm_trans; [apply insert_permutation|]. apply perm_skip. exact IH.
Qed.
Lemma order_unique : forall l m, in_order l -> in_order m -> Permutation l m -> l = m.
Proof.
  unfold in_order. induction l as [|a l IH]; intros m L M P.
  - apply Permutation_nil in P. auto.
  - destruct m as [|b m]; [apply Permutation_sym, Permutation_nil in P; discriminate|].
    inversion L as [|? ? L1 L2]; subst. inversion M as [|? ? M1 M2]; subst. rewrite Forall_forall in L2, M2.
    assert (E : a = b).
    { assert (A : In a (b :: m)) by (eapply Permutation_in; [exact P|left; reflexivity]).
      assert (B : In b (a :: l)) by (eapply Permutation_in; [apply Permutation_sym; exact P|left; reflexivity]).
      destruct A as [A|A]; [auto|]. destruct B as [B|B]; [auto|].
      destruct (M2 _ A) as [X|X]; [|auto]. destruct (L2 _ B) as [Y|Y]; [|auto].
      exfalso. eapply path_irrefl. eapply path_trans; eauto. }
    subst b. f_equal. apply IH; auto. eapply Permutation_cons_inv. exact P.
Qed.
Lemma sort_same : forall l m, Permutation l m -> sort_paths l = sort_paths m.
Proof.
  intros l m P. apply order_unique; [apply sort_order|apply sort_order|].
  eapply perm_trans; [apply sort_permutation|]. eapply perm_trans; [exact P|]. apply Permutation_sym, sort_permutation.
Qed.
