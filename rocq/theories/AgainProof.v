(** Proofs for C45: wrapping what was wrapped. *)
From Coq Require Import Bool Arith NArith Lia ZifyBool ZifyNat ZifyN String List.
From Verif Require Import Base BaseFacts WrapModel SpecWrap WrapProof SpecAgain.
Import ListNotations.

(** ** Units: what is never broken *)
Definition state0 : bool * nat := (false, 0).
Definition firm (u : str) : Prop :=
  (exists c r, u = c :: r /\ is_ws c = false) /\ exists a c, u = a ++ [c] /\ is_ws c = false.
Inductive chain : list str -> Prop :=
| ch_one : forall u, unbreakable u -> firm u -> chain [u]
| ch_cons : forall u us, unbreakable u -> firm u -> fold_left unit_step u state0 = state0 -> chain us -> chain (u :: us).
Lemma chain_app : forall a b, b <> [] -> chain (a ++ b) -> chain b.
Proof.
  intros a b N. induction a as [|u a IH]; intro C; [exact C|]. cbn [app] in C. inversion C; subst; auto.
  destruct a; [destruct b; [congruence|discriminate]|discriminate].
Qed.
Lemma chain_ne : forall us, chain us -> us <> [].
Proof. intros us C. inversion C; discriminate. Qed.
Lemma chain_firm : forall us, chain us -> Forall firm us.
Proof. intros us C. induction C; constructor; auto. Qed.

(** Cutting a text into units. *)
Definition neutral_state (st : bool * nat) : bool := negb (fst st) && (snd st =? 0).
Lemma neutral_state_iff : forall st, neutral_state st = true <-> st = state0.
Proof. intros [[|] [|d]]; split; intro H; try discriminate; reflexivity. Qed.
Fixpoint cut (st : bool * nat) (cur s : str) : list str :=
  match s with
  | [] => [cur]
  | c :: r => if ceq c c_sp && neutral_state st then cur :: cut state0 [] r else cut (unit_step st c) (cur ++ [c]) r
  end.
(** No space after a space, none at the beginning if [prev], none at the end. *)
Fixpoint sparse (prev : bool) (s : str) : Prop :=
  match s with
  | [] => prev = false
  | c :: r => (c = c_sp -> prev = false) /\ (is_ws c = true -> c = c_sp) /\ sparse (ceq c c_sp) r
  end.
Lemma cut_ne : forall s st cur, cut st cur s <> [].
Proof. induction s as [|c s IH]; intros st cur; cbn [cut]; [discriminate|]. destruct (_ && _); [discriminate|apply IH]. Qed.
Lemma cut_join : forall s st cur, join [c_sp] (cut st cur s) = cur ++ s.
Proof.
  induction s as [|c s IH]; intros st cur; cbn [cut]; [cbn; rewrite app_nil_r; reflexivity|].
  destruct (ceq c c_sp && neutral_state st) eqn:E.
  - apply andb_true_iff in E. destruct E as [E _]. apply ceq_true in E. subst c.
    destruct (cut state0 [] s) as [|x l] eqn:Q; [destruct (cut_ne _ _ _ Q)|]. rewrite join_cons, <- Q, IH. reflexivity.
  - rewrite IH, <- app_assoc. reflexivity.
Qed.
Lemma step_space : forall st, unit_step st c_sp = st.
Proof. intros [[|] [|d]]; reflexivity. Qed.
(** [cur] has been read: it is unbreakable and leads to [st]. *)
Definition begins_firm (cur : str) : Prop := exists c r, cur = c :: r /\ is_ws c = false.
Lemma cut_chain : forall s st cur, unbreakable cur -> fold_left unit_step cur state0 = st ->
  (cur = [] \/ begins_firm cur /\ exists a c, cur = a ++ [c] /\ (is_ws c = true -> c = c_sp)) ->
  sparse (match rev cur with [] => true | c :: _ => ceq c c_sp end) s -> chain (cut st cur s).
Proof.
  induction s as [|c s IH]; intros st cur Ub Es Hc Sp; cbn [cut sparse] in *.
  - apply ch_one; [exact Ub|]. destruct Hc as [->|[Bf (a & c & -> & Hc)]]; [discriminate|]. split; [exact Bf|]. exists a, c. split; [reflexivity|].
    rewrite rev_app_distr in Sp. cbn in Sp. destruct (is_ws c) eqn:W; [|reflexivity]. specialize (Hc eq_refl). subst c. discriminate.
  - destruct Sp as (S1 & S2 & S3). destruct (ceq c c_sp && neutral_state st) eqn:E.
    + apply andb_true_iff in E. destruct E as [E1 E2]. apply ceq_true in E1. subst c. apply neutral_state_iff in E2. specialize (S1 eq_refl).
      apply ch_cons; [exact Ub| |rewrite Es; exact E2|].
      * destruct Hc as [->|[Bf (a & c & -> & Hc)]]; [discriminate|]. split; [exact Bf|]. exists a, c. split; [reflexivity|].
        rewrite rev_app_distr in S1. cbn in S1. destruct (is_ws c) eqn:W; [|reflexivity]. specialize (Hc eq_refl). subst c. discriminate.
      * apply IH; [intros a b K; destruct a; discriminate|reflexivity|auto|exact S3].
    + apply IH.
      * apply unbreakable_snoc; [exact Ub|]. intros ->. rewrite ceq_refl in E. cbn in E. intro K. apply neutral_state_iff in K. change (false, 0) with state0 in K. rewrite Es in K. congruence.
      * rewrite fold_left_app, Es. reflexivity.
      * right. split; [|exists cur, c; split; [reflexivity|exact S2]]. destruct Hc as [->|[(c0 & r & -> & W) _]].
        -- exists c, []. split; [reflexivity|]. destruct (is_ws c) eqn:W; [|reflexivity]. specialize (S2 eq_refl). subst c. specialize (S1 eq_refl). discriminate.
        -- exists c0, (r ++ [c]). split; [reflexivity|exact W].
      * rewrite rev_app_distr. exact S3.
Qed.
Lemma units_of : forall s, sparse true s -> exists us, chain us /\ join [c_sp] us = s.
Proof.
  intros s H. exists (cut state0 [] s). split; [|apply cut_join].
  apply cut_chain; [intros a b K; destruct a; discriminate|reflexivity|auto|exact H].
Qed.
Lemma sparse_join2 : forall a p b, sparse p a -> sparse true b -> a <> [] -> sparse p (a ++ c_sp :: b).
Proof.
  induction a as [|c a IH]; intros p b A B N; [congruence|]. cbn [sparse app] in *. destruct A as (A1 & A2 & A3). split; [exact A1|]. split; [exact A2|].
  destruct a as [|c1 a]; [|apply IH; [exact A3|exact B|discriminate]]. cbn [sparse app] in *. split; [intros _; exact A3|]. split; [reflexivity|]. exact B.
Qed.
Lemma sparse_ne : forall s, sparse true s -> s <> [].
Proof. intros [|c s] H; [discriminate|discriminate]. Qed.
Lemma sparse_join : forall ls, ls <> [] -> Forall (sparse true) ls -> sparse true (join [c_sp] ls).
Proof.
  induction ls as [|l ls IH]; intros N F; [congruence|]. inversion F; subst. destruct ls as [|l2 ls]; [exact H1|].
  rewrite join_cons. apply (sparse_join2 l true (join [c_sp] (l2 :: ls))); [exact H1|apply IH; [discriminate|exact H2]|apply sparse_ne; exact H1].
Qed.
Lemma join_join : forall (us : list (list str)), Forall (fun u => u <> []) us -> join [c_sp] (map (join [c_sp]) us) = join [c_sp] (List.concat us).
Proof.
  induction us as [|u us IH]; intro F; [reflexivity|]. inversion F; subst. destruct us as [|u2 us].
  - cbn [map List.concat]. rewrite app_nil_r. reflexivity.
  - cbn [map] in *. rewrite join_cons, (IH H2). cbn [List.concat]. rewrite (join_app2 [c_sp] u (u2 ++ List.concat us)); [reflexivity|exact H1|].
    inversion H2; subst. destruct u2; [congruence|discriminate].
Qed.

(** ** Reading units one by one *)
Section Greedy.
Variable U : Uni.
Variable W : width_laws U.
Variable lw : nat.
Variables fp cp : str.
Hypothesis Sf : spaced fp.
Hypothesis Sc : spaced cp.
Let fpw := u_width U fp.
Let step := wrap_step U fpw cp lw.

Lemma run_unit : forall u r l f, unbreakable u ->
  fold_left step u (mkW r l f [] [] false 0)
  = mkW r l f u [] (fst (fold_left unit_step u state0)) (snd (fold_left unit_step u state0)).
Proof.
  intros u r l f. induction u as [|c a IH] using rev_ind; intro Ub; [reflexivity|].
  assert (Ua : unbreakable a).
  { intros x y E. apply (Ub x (y ++ [c])). rewrite E, <- app_assoc. reflexivity. }
  rewrite !fold_left_app. rewrite (IH Ua). cbn [fold_left].
  specialize (Ub a [] : a ++ [c] = a ++ [c_sp] -> _). change (false, 0) with state0 in Ub.
  destruct (fold_left unit_step a state0) as [bt d] eqn:E. cbn [fst snd].
  unfold step, wrap_step, push_char, flush_token, unit_step. cbn [w_bt w_depth w_token w_spaces w_result w_line w_first is_nil negb]. rewrite andb_false_r.
  destruct (ceq c c_bt && (d =? 0)) eqn:E1; [destruct bt; reflexivity|].
  destruct bt; [reflexivity|]. destruct (ceq c c_lbr) eqn:E2; [destruct (d =? 0); reflexivity|].
  destruct (ceq c c_rbr) eqn:E3; cbn [andb].
  - destruct d as [|d]; [|cbn; rewrite Nat.sub_0_r; reflexivity]. cbn. apply ceq_true in E3. subst c. reflexivity.
  - destruct d as [|d]; [|reflexivity]. cbn [Nat.ltb Nat.leb]. destruct (ceq c c_sp) eqn:E4; [|reflexivity].
    exfalso. apply ceq_true in E4. subst c. apply Ub; reflexivity.
Qed.
Lemma run_flush : forall c s, c <> c_sp -> w_bt s = false -> w_depth s = 0 -> step s c = step (flush_token U fpw cp lw s) c.
Proof.
  intros c s N B D. assert (F : w_bt (flush_token U fpw cp lw s) = false /\ w_depth (flush_token U fpw cp lw s) = 0
    /\ flush_token U fpw cp lw (flush_token U fpw cp lw s) = flush_token U fpw cp lw s).
  { unfold flush_token. destruct (negb (is_nil (w_token s)) && negb (is_nil (w_spaces s))) eqn:E.
    - destruct (add_token U (w_result s) (w_line s) (w_token s) (w_spaces s) fpw cp lw (w_first s)) as [[r l] f]. cbn. auto.
    - rewrite E. auto. }
  destruct F as (F1 & F2 & F3). unfold step, wrap_step. rewrite B, D, F1, F2, F3. cbn [Nat.eqb Nat.ltb Nat.leb]. rewrite !andb_true_r, !andb_false_r.
  apply ceq_false in N. rewrite N. reflexivity.
Qed.
(** All units but the last are followed by a space. *)
Fixpoint adds (us : list str) (x : str * str * bool) : str * str * bool :=
  match us with
  | [] => x
  | u :: rest =>
      let '(r, l, f) := x in
      adds rest (add_token U r l u (if is_nil rest then [] else [c_sp]) fpw cp lw f)
  end.
Definition finish (x : str * str * bool) : str :=
  let '(r, l, _) := x in if negb (is_nil (trim_end l)) then r ++ trim_end l else r.
Lemma firm_ne : forall u, firm u -> u <> [].
Proof. intros u [(c & r & -> & _) _]. discriminate. Qed.
Lemma run_chain : forall us, chain us -> forall r l f,
  (let s := fold_left step (join [c_sp] us) (mkW r l f [] [] false 0) in
   let '(r', l') := if negb (is_nil (w_token s)) then let '(r', l', _) := add_token U (w_result s) (w_line s) (w_token s) [] fpw cp lw (w_first s) in (r', l') else (w_result s, w_line s) in
   let final := trim_end l' in if negb (is_nil final) then r' ++ final else r')
  = finish (adds us (r, l, f)).
Proof.
  intros us C. induction C as [u Ub Fu|u us Ub Fu Cl C IH]; intros r l f.
  - cbn [join adds is_nil]. rewrite (run_unit u r l f Ub). cbn [w_token w_result w_line w_first]. pose proof (firm_ne u Fu) as Nu. apply is_nil_false in Nu. rewrite Nu. cbn [negb].
    destruct (add_token _ _ _ _ _ _ _ _ _) as [[r' l'] f']. reflexivity.
  - destruct us as [|u2 us]; [inversion C|]. rewrite join_cons. rewrite !fold_left_app. rewrite (run_unit u r l f Ub), Cl. cbn [fst snd state0].
    cbn [fold_left]. assert (Sp : step (mkW r l f u [] false 0) c_sp = mkW r l f u [c_sp] false 0) by reflexivity. rewrite Sp.
    assert (J : exists c j, join [c_sp] (u2 :: us) = c :: j /\ c <> c_sp).
    { pose proof (Forall_inv (chain_firm _ C)) as [(c & j & -> & Wc) _]. destruct us as [|u3 us].
      - exists c, j. split; [reflexivity|]. intros ->. discriminate.
      - rewrite join_cons. exists c, (j ++ [c_sp] ++ join [c_sp] (u3 :: us)). split; [reflexivity|]. intros ->. discriminate. }
    destruct J as (c & j & Ej & Nc).
    assert (E : fold_left step (join [c_sp] (u2 :: us)) (mkW r l f u [c_sp] false 0)
              = fold_left step (join [c_sp] (u2 :: us)) (flush_token U fpw cp lw (mkW r l f u [c_sp] false 0))).
    { rewrite Ej. cbn [fold_left]. rewrite (run_flush c (mkW r l f u [c_sp] false 0) Nc eq_refl eq_refl). reflexivity. }
    change (adds (u :: u2 :: us) (r, l, f)) with (adds (u2 :: us) (add_token U r l u [c_sp] fpw cp lw f)).
    destruct (add_token U r l u [c_sp] fpw cp lw f) as [[r1 l1] f1] eqn:A.
    assert (Fl : flush_token U fpw cp lw (mkW r l f u [c_sp] false 0) = mkW r1 l1 f1 [] [] false 0).
    { unfold flush_token. cbn [w_token w_spaces w_result w_line w_first w_bt w_depth]. pose proof (firm_ne u Fu) as Nu. apply is_nil_false in Nu. rewrite Nu.
      cbn [negb is_nil andb]. rewrite A. reflexivity. }
    rewrite Fl in E. rewrite E. exact (IH r1 l1 f1).
Qed.
Lemma single_adds : forall us, chain us -> wrap_single_segment U (join [c_sp] us) fp cp lw = finish (adds us ([], fp, true)).
Proof. intros us C. exact (run_chain us C [] fp true). Qed.

(** ** Lines as lists of units *)
Definition fits_line (pre : str) (vs : list str) (u : str) (last : bool) : bool :=
  is_nil vs || (u_width U (pre ++ join [c_sp] vs ++ [c_sp]) + u_width U u + (if last then 0 else 1) <=? lw).
Fixpoint greedy (pre : str) (vs us : list str) : list (str * list str) :=
  match us with
  | [] => [(pre, vs)]
  | u :: r => if fits_line pre vs u (is_nil r) then greedy pre (vs ++ [u]) r else (pre, vs) :: greedy cp [u] r
  end.
Lemma greedy_ne : forall us pre vs, greedy pre vs us <> [].
Proof. induction us as [|u us IH]; intros pre vs; cbn [greedy]; [discriminate|]. destruct (fits_line _ _ _ _); [apply IH|discriminate]. Qed.
Definition row (x : str * list str) : str := fst x ++ join [c_sp] (snd x).
Definition open_line (pre : str) (vs : list str) : str := pre ++ match vs with [] => [] | _ => join [c_sp] vs ++ [c_sp] end.
Lemma firm_join : forall us, us <> [] -> Forall firm us -> firm (join [c_sp] us).
Proof.
  induction us as [|u us IH]; intros N F; [congruence|]. inversion F as [|? ? Fu F']; subst. destruct us as [|u2 us]; [exact Fu|].
  rewrite join_cons. destruct (IH ltac:(discriminate) F') as [_ (a & c & Ea & Wc)]. destruct Fu as [(c0 & r0 & -> & W0) _]. split.
  - exists c0, (r0 ++ [c_sp] ++ join [c_sp] (u2 :: us)). split; [reflexivity|exact W0].
  - exists ((c0 :: r0) ++ [c_sp] ++ a), c. split; [|exact Wc]. rewrite Ea, <- !app_assoc. reflexivity.
Qed.
Lemma trim_end_firm : forall p u, firm u -> trim_end (p ++ u) = p ++ u.
Proof. intros p u [_ (a & c & -> & Wc)]. rewrite app_assoc. apply trim_end_snoc_id. exact Wc. Qed.
Lemma trim_end_open : forall p u, firm u -> trim_end (p ++ u ++ [c_sp]) = p ++ u.
Proof. intros p u F. rewrite app_assoc, trim_end_snoc_ws by reflexivity. apply trim_end_firm. exact F. Qed.
Lemma trim_firm : forall u, firm u -> trim u = u.
Proof.
  intros u F. unfold trim. destruct F as [(c & r & E & Wc) L].
  assert (T : trim_start u = u) by (rewrite E; unfold trim_start; cbn [drop_while]; rewrite Wc; reflexivity).
  rewrite T. change u with ([] ++ u). apply trim_end_firm. split; [exists c, r; auto|exact L].
Qed.
Lemma join_snoc : forall vs u, vs <> [] -> join [c_sp] (vs ++ [u]) = join [c_sp] vs ++ [c_sp] ++ u.
Proof. intros vs u N. rewrite (join_app2 [c_sp] vs [u]); [reflexivity|exact N|discriminate]. Qed.
Lemma width_open : forall pre v, spaced pre -> u_width U pre < u_width U (pre ++ v ++ [c_sp]).
Proof.
  intros pre v Sp. rewrite (width_spaced U W pre _ Sp). rewrite (width_sp U W v []). lia.
Qed.
Lemma adds_greedy : forall us (f : bool) vs r, us <> [] -> Forall firm (vs ++ us) ->
  forall pre, pre = (if f then fp else cp) -> finish (adds us (r, open_line pre vs, f)) = r ++ join [c_nl] (map row (greedy pre vs us)).
Proof.
  induction us as [|u us IH]; intros f vs r N F pre Ep; [congruence|]. clear N. cbn [adds greedy].
  assert (Fv : Forall firm vs) by (apply Forall_app in F; apply F). assert (Fu : firm u) by (apply Forall_app in F; destruct F as [_ F]; apply (Forall_inv F)).
  assert (Spre : spaced pre) by (rewrite Ep; destruct f; assumption).
  assert (Cw : (if f then fpw else u_width U cp) = u_width U pre) by (unfold fpw; rewrite Ep; destruct f; reflexivity).
  match goal with |- context [add_token U r _ u ?x _ _ _ _] => set (sps := x) end.
  assert (A : add_token U r (open_line pre vs) u sps fpw cp lw f
    = if fits_line pre vs u (is_nil us) then (r, open_line pre vs ++ u ++ sps, f)
      else (r ++ (pre ++ join [c_sp] vs) ++ [c_nl], cp ++ u ++ sps, false)).
  { unfold add_token, fits_line. rewrite Cw. destruct vs as [|v vs].
    - unfold open_line. rewrite app_nil_r, Nat.eqb_refl. reflexivity.
    - cbn [is_nil orb]. unfold open_line. pose proof (width_open pre (join [c_sp] (v :: vs)) Spre) as Wo.
      destruct (u_width U (pre ++ join [c_sp] (v :: vs) ++ [c_sp]) =? u_width U pre) eqn:Q; [apply Nat.eqb_eq in Q; lia|].
      assert (Bl : byte_len sps = if is_nil us then 0 else 1) by (unfold sps; destruct (is_nil us); reflexivity). rewrite Bl.
      destruct (_ <=? lw); [reflexivity|]. rewrite trim_end_open by (apply firm_join; [discriminate|exact Fv]). reflexivity. }
  rewrite A. destruct (fits_line pre vs u (is_nil us)) eqn:Ft.
  - assert (O : open_line pre vs ++ u = pre ++ join [c_sp] (vs ++ [u])).
    { unfold open_line. destruct vs as [|v vs]; [rewrite app_nil_r; reflexivity|]. rewrite (join_snoc (v :: vs) u) by discriminate. rewrite <- !app_assoc. reflexivity. }
    destruct us as [|u2 us].
    + unfold sps. cbn [is_nil adds greedy map join]. rewrite app_nil_r. unfold finish, row. cbn [fst snd]. rewrite O.
      assert (Fj : firm (join [c_sp] (vs ++ [u]))) by (apply firm_join; [destruct vs; discriminate|apply Forall_app; auto]).
      rewrite (trim_end_firm pre _ Fj). pose proof (firm_ne _ Fj) as Nj. destruct (is_nil (pre ++ join [c_sp] (vs ++ [u]))) eqn:Z; [|reflexivity].
      apply is_nil_true in Z. apply app_eq_nil in Z. destruct Z as [_ Z]. congruence.
    + unfold sps. cbn [is_nil]. assert (O2 : open_line pre vs ++ u ++ [c_sp] = open_line pre (vs ++ [u])).
      { rewrite app_assoc, O. unfold open_line. destruct (vs ++ [u]) eqn:Z; [destruct vs; discriminate|]. rewrite <- app_assoc. reflexivity. }
      rewrite O2. apply (IH f (vs ++ [u]) r); [discriminate| |exact Ep]. rewrite <- app_assoc. exact F.
  - destruct vs as [|v vs]; [discriminate Ft|]. cbn [map]. unfold row at 1. cbn [fst snd].
    destruct us as [|u2 us].
    + unfold sps. cbn [is_nil adds greedy map]. rewrite app_nil_r. unfold finish. rewrite (trim_end_firm cp u Fu). pose proof (firm_ne _ Fu) as Nu.
      destruct (is_nil (cp ++ u)) eqn:Z; [apply is_nil_true in Z; apply app_eq_nil in Z; destruct Z; congruence|]. cbn [negb]. rewrite join_cons. unfold row. cbn [fst snd join].
      rewrite <- !app_assoc. reflexivity.
    + unfold sps. cbn [is_nil]. change (cp ++ u ++ [c_sp]) with (open_line cp [u]).
      rewrite (IH false [u] (r ++ (pre ++ join [c_sp] (v :: vs)) ++ [c_nl])); [|discriminate|apply Forall_app in F; apply F|reflexivity].
      assert (Nz : map row (greedy cp [u] (u2 :: us)) <> []).
      { pose proof (greedy_ne (u2 :: us) cp [u]) as G. destruct (greedy cp [u] (u2 :: us)); [congruence|discriminate]. }
      destruct (map row (greedy cp [u] (u2 :: us))) as [|z zs]; [congruence|]. rewrite join_cons, <- !app_assoc. reflexivity.
Qed.
Lemma single_greedy : forall us, chain us -> wrap_single_segment U (join [c_sp] us) fp cp lw = join [c_nl] (map row (greedy fp [] us)).
Proof.
  intros us C. rewrite (single_adds us C). assert (O : open_line fp [] = fp) by apply app_nil_r. rewrite <- O at 1.
  apply (adds_greedy us true [] []); [apply chain_ne; exact C|apply chain_firm; exact C|reflexivity].
Qed.
Lemma greedy_units : forall us pre vs, List.concat (map snd (greedy pre vs us)) = vs ++ us.
Proof.
  induction us as [|u us IH]; intros pre vs; cbn [greedy]; [cbn; reflexivity|]. destruct (fits_line _ _ _ _).
  - rewrite IH, <- app_assoc. reflexivity.
  - cbn [map List.concat snd]. rewrite IH. reflexivity.
Qed.
Lemma greedy_shape : forall us pre vs, exists vs' L, greedy pre vs us = (pre, vs') :: L /\ Forall (fun x => fst x = cp /\ snd x <> []) L /\ (vs <> [] \/ us <> [] -> vs' <> []).
Proof.
  induction us as [|u us IH]; intros pre vs; cbn [greedy].
  - exists vs, []. split; [reflexivity|]. split; [constructor|]. intros [H|H]; [exact H|congruence].
  - destruct (fits_line pre vs u (is_nil us)) eqn:E.
    + destruct (IH pre (vs ++ [u])) as (v & L & Eq & F & N). exists v, L. split; [exact Eq|]. split; [exact F|]. intros _. apply N. left. destruct vs; discriminate.
    + exists vs, (greedy cp [u] us). split; [reflexivity|]. destruct (IH cp [u]) as (v & L & Eq & F & N). split.
      * rewrite Eq. constructor; [split; [reflexivity|apply N; left; discriminate]|exact F].
      * intros _ K. subst vs. discriminate E.
Qed.
(** What follows the first line is laid out as if it stood alone. *)
Lemma greedy_suffix : forall us pre vs A B, greedy pre vs us = A ++ B -> A <> [] -> B <> [] -> B = greedy cp [] (List.concat (map snd B)).
Proof.
  induction us as [|u us IH]; intros pre vs A B E NA NB; cbn [greedy] in E.
  - destruct A as [|a [|a' A]]; [congruence| |discriminate]. injection E as _ E. congruence.
  - destruct (fits_line pre vs u (is_nil us)); [eapply IH; eassumption|].
    destruct A as [|a A]; [congruence|]. injection E as _ E. destruct A as [|a' A].
    + cbn [app] in E. subst B. rewrite greedy_units. reflexivity.
    + eapply IH; [exact E|discriminate|exact NB].
Qed.
End Greedy.

(** ** Lines that are laid out as they are *)
Section Second.
Variable U : Uni.
Variable W : width_laws U.
Variable lw : nat.

Definition rows (fp cp : str) (bodies : list str) : list str :=
  match bodies with [] => [] | b :: r => (fp ++ b) :: map (app cp) r end.
Definition inside (b : str) : Prop := Forall (fun c => c <> soft /\ c <> c_nl) b.
Definition stays (fp cp : str) (bodies : list str) : Prop :=
  forall A b B, bodies = A ++ b :: B ->
    lw < u_width U (if is_nil A then fp else cp) + u_width U b ->
    wrap_single_segment U (join [c_sp] (b :: B)) (if is_nil A then fp else cp) cp lw
    = join [c_nl] (rows (if is_nil A then fp else cp) cp (b :: B)).
Lemma rows_ne : forall fp cp b B, rows fp cp (b :: B) <> [].
Proof. discriminate. Qed.
Lemma firm_cons_ne : forall p b, firm b -> is_nil (p ++ b) = false.
Proof. intros p b F. apply is_nil_false. intro K. apply app_eq_nil in K. apply (firm_ne b F). apply K. Qed.
Lemma rows_loop : forall fp cp bodies (first : bool) result cur, cur = (if first then fp else cp) -> bodies <> [] -> Forall firm bodies ->
  stays cur cp bodies ->
  first_segment_loop U result first bodies fp cp lw = push_nl result ++ join [c_nl] (rows cur cp bodies).
Proof.
  intros fp cp. induction bodies as [|b B IH]; intros first result cur Ec N F St; [congruence|]. inversion F as [|? ? Fb FB]; subst.
  cbn [first_segment_loop]. rewrite (trim_firm b Fb).
  destruct (u_width U (if first then fp else cp) + u_width U b <=? lw) eqn:E.
  - destruct B as [|b2 B].
    + cbn [first_segment_loop rows map join]. reflexivity.
    + rewrite (IH false _ cp eq_refl ltac:(discriminate) FB).
      * assert (Nn : is_nil (push_nl result ++ (if first then fp else cp) ++ b) = false) by (rewrite app_assoc; apply firm_cons_ne; exact Fb).
        etransitivity; [apply (f_equal (fun z => z ++ _)); exact (push_nl_some _ Nn)|]. cbn [rows map]. rewrite join_cons, <- !app_assoc. reflexivity.
      * intros A x X Q Wd. specialize (St (b :: A) x X). cbn [is_nil app] in St. specialize (St ltac:(rewrite Q; reflexivity)).
        assert (P : (if is_nil A then cp else cp) = cp) by (destruct (is_nil A); reflexivity). rewrite P in *. apply St. exact Wd.
  - apply Nat.leb_gt in E. rewrite merge_rest_join. f_equal.
    assert (M : map trim B = B) by (clear - FB; induction FB; cbn [map]; [reflexivity|rewrite trim_firm by assumption; congruence]). rewrite M.
    exact (St [] b B eq_refl E).
Qed.
Lemma again_segment : forall fp cp bodies, bodies <> [] -> Forall firm bodies -> Forall inside bodies -> stays fp cp bodies ->
  (forall b, bodies = [b] -> wrap_single_segment U b fp cp lw = fp ++ b) ->
  wrap_text_first_line_segment U (join [soft] bodies) fp cp lw = join [c_nl] (rows fp cp bodies).
Proof.
  intros fp cp bodies N F I St One. unfold wrap_text_first_line_segment. change c_nul with soft.
  rewrite split_on_join; [|exact N|eapply Forall_impl; [|exact I]; intros b Hb; eapply Forall_impl; [|exact Hb]; intros x [Hx _]; exact Hx].
  destruct bodies as [|b [|b2 B]]; [congruence| |].
  - cbn [join]. rewrite (One b eq_refl). reflexivity.
  - rewrite (rows_loop fp cp (b :: b2 :: B) true [] fp eq_refl N F St). reflexivity.
Qed.

Lemma row_rows : forall cp us pre vs, map row (greedy U lw cp pre vs us) = rows pre cp (map (fun x => join [c_sp] (snd x)) (greedy U lw cp pre vs us)).
Proof.
  intros cp us pre vs. destruct (greedy_shape U lw cp us pre vs) as (v & L & -> & F & _). cbn [map rows]. f_equal.
  induction F as [|[p w] L [Fp _] F IH]; [reflexivity|]. cbn [map]. rewrite IH. cbn [fst] in Fp. subst p. reflexivity.
Qed.
Lemma Forall_join_inv : forall (P : char -> Prop) ls, Forall P (join [c_sp] ls) -> Forall (Forall P) ls.
Proof.
  induction ls as [|l ls IH]; intro H; [constructor|]. destruct ls as [|l2 ls]; [constructor; [exact H|constructor]|].
  rewrite join_cons in H. apply Forall_app in H. destruct H as [H1 H]. apply Forall_app in H. destruct H as [_ H]. constructor; auto.
Qed.
Lemma greedy_stays : forall fp cp us, spaced fp -> spaced cp -> chain us -> inside (join [c_sp] us) ->
  exists bodies, bodies <> [] /\ Forall firm bodies /\ Forall inside bodies
    /\ wrap_single_segment U (join [c_sp] us) fp cp lw = join [c_nl] (rows fp cp bodies)
    /\ stays fp cp bodies /\ (forall b, bodies = [b] -> wrap_single_segment U b fp cp lw = fp ++ b).
Proof.
  intros fp cp us Sf Sc C I. set (G := greedy U lw cp fp [] us). set (body := fun x : str * list str => join [c_sp] (snd x)).
  pose proof (greedy_units U lw cp us fp []) as Gu. fold G in Gu. cbn [app] in Gu.
  assert (Nv : Forall (fun x => snd x <> []) G).
  { unfold G. destruct (greedy_shape U lw cp us fp []) as (v & L & -> & F & Nn). constructor; [apply Nn; right; apply chain_ne; exact C|].
    eapply Forall_impl; [|exact F]. intros x Hx. apply Hx. }
  assert (Fu : Forall (Forall firm) (map snd G)).
  { pose proof (chain_firm us C) as F. rewrite <- Gu in F. clear - F. induction (map snd G) as [|x l IH]; [constructor|]. cbn [List.concat] in F. apply Forall_app in F. destruct F. constructor; auto. }
  assert (Iu : Forall (Forall inside) (map snd G)).
  { pose proof (Forall_join_inv _ us I) as F. change (Forall inside us) in F. rewrite <- Gu in F. clear - F. induction (map snd G) as [|x l IH]; [constructor|]. cbn [List.concat] in F. apply Forall_app in F. destruct F. constructor; auto. }
  assert (Jb : forall H, Forall (fun x => snd x <> []) H -> join [c_sp] (map body H) = join [c_sp] (List.concat (map snd H))).
  { intros H F. unfold body. rewrite <- (map_map snd (join [c_sp])). apply join_join. apply Forall_map. exact F. }
  assert (S : forall A b B, map body G = A ++ b :: B ->
    wrap_single_segment U (join [c_sp] (b :: B)) (if is_nil A then fp else cp) cp lw = join [c_nl] (rows (if is_nil A then fp else cp) cp (b :: B))).
  { intros A b B E. apply map_eq_app in E. destruct E as (GA & GB & EG & EA & EB).
    assert (NB : Forall (fun x => snd x <> []) GB) by (rewrite EG in Nv; apply Forall_app in Nv; apply Nv).
    rewrite <- EB. rewrite (Jb GB NB). destruct GA as [|x GA].
    - cbn [map] in EA. subst A. cbn [is_nil app] in *. rewrite <- EG, Gu. rewrite (single_greedy U W lw fp cp Sf Sc us C). fold G. unfold G. rewrite row_rows. reflexivity.
    - cbn [map] in EA. subst A. cbn [is_nil].
      assert (NG : GB <> []) by (intros ->; discriminate EB).
      assert (Sx : GB = greedy U lw cp cp [] (List.concat (map snd GB))) by (eapply greedy_suffix; [exact EG|discriminate|exact NG]).
      assert (Cx : chain (List.concat (map snd GB))).
      { apply (chain_app (List.concat (map snd (x :: GA)))); [|rewrite <- concat_app, <- map_app, <- EG, Gu; exact C].
        destruct GB as [|y GB]; [congruence|]. pose proof (Forall_inv NB) as Ny. cbn [map List.concat]. intro K. apply app_eq_nil in K. apply Ny. apply K. }
      rewrite (single_greedy U W lw cp cp Sc Sc _ Cx). rewrite <- Sx. f_equal. unfold body. rewrite Sx. apply row_rows. }
  exists (map body G). split.
  { pose proof (greedy_ne U lw cp us fp []) as Ng. fold G in Ng. destruct G; [congruence|discriminate]. }
  split.
  { apply Forall_map. rewrite Forall_map in Fu. clear - Nv Fu. induction Nv as [|x l Nx Nv IH]; [constructor|]. inversion Fu; subst. constructor; [|auto].
    unfold body. apply firm_join; assumption. }
  split.
  { apply Forall_map. rewrite Forall_map in Iu. eapply Forall_impl; [|exact Iu]. intros x Hx. unfold body, inside. apply Forall_join; [split; discriminate|exact Hx]. }
  split; [rewrite (single_greedy U W lw fp cp Sf Sc us C); f_equal; apply row_rows|].
  split; [intros A b B E _; apply S; exact E|]. intros b E. specialize (S [] b []). cbn [is_nil app join rows map] in S. apply S. exact E.
Qed.
Lemma first_pass : forall fp cp ls (first : bool) result cur, cur = (if first then fp else cp) -> spaced fp -> spaced cp ->
  ls <> [] -> Forall (fun l => sparse true l /\ firm l /\ inside l) ls ->
  exists bodies, bodies <> [] /\ Forall firm bodies /\ Forall inside bodies
    /\ first_segment_loop U result first ls fp cp lw = push_nl result ++ join [c_nl] (rows cur cp bodies)
    /\ stays cur cp bodies /\ (2 <= List.length ls -> forall b, bodies = [b] -> wrap_single_segment U b cur cp lw = cur ++ b).
Proof.
  intros fp cp. induction ls as [|l ls IH]; intros first result cur Ec Sf Sc N F; [congruence|]. inversion F as [|? ? (Sl & Fl & Il) F']; subst.
  assert (Scur : spaced (if first then fp else cp)) by (destruct first; assumption).
  cbn [first_segment_loop]. rewrite (trim_firm l Fl). destruct (u_width U (if first then fp else cp) + u_width U l <=? lw) eqn:E.
  - apply Nat.leb_le in E. destruct ls as [|l2 ls].
    + exists [l]. split; [discriminate|]. split; [apply Forall_cons; [exact Fl|constructor]|]. split; [apply Forall_cons; [exact Il|constructor]|]. split; [reflexivity|]. split.
      * intros A b B Q Wd. destruct A as [|a [|a' A]]; [|discriminate|discriminate]. injection Q as <- <-. cbn [is_nil] in Wd. lia.
      * cbn [List.length]. lia.
    + destruct (IH false (push_nl result ++ (if first then fp else cp) ++ l) cp eq_refl Sf Sc ltac:(discriminate) F') as (bodies & Nb & Fb & Ib & Eb & St & _).
      exists (l :: bodies). split; [discriminate|]. split; [constructor; assumption|]. split; [constructor; assumption|]. split.
      { etransitivity; [exact Eb|]. assert (Nn : is_nil (push_nl result ++ (if first then fp else cp) ++ l) = false) by (rewrite app_assoc; apply firm_cons_ne; exact Fl).
        etransitivity; [apply (f_equal (fun z => z ++ _)); exact (push_nl_some _ Nn)|]. destruct bodies as [|b B]; [congruence|]. cbn [rows map]. rewrite join_cons, <- !app_assoc. reflexivity. }
      split; [|intros _ b Q; injection Q as _ ->; congruence].
      intros A b B Q Wd. destruct A as [|a A]; [injection Q as <- <-; cbn [is_nil] in Wd; lia|]. injection Q as <- Q. cbn [is_nil] in *. specialize (St A b B Q).
      assert (P : (if is_nil A then cp else cp) = cp) by (destruct (is_nil A); reflexivity). rewrite P in St. apply St. exact Wd.
  - rewrite merge_rest_join.
    assert (M : map trim ls = ls) by (clear - F'; induction F' as [|x l (_ & Fx & _) F IH]; cbn [map]; [reflexivity|rewrite trim_firm by assumption; congruence]). rewrite M.
    destruct (units_of (join [c_sp] (l :: ls))) as (us & C & Eu).
    { apply sparse_join; [discriminate|]. eapply Forall_impl; [|exact F]. intros x Hx. apply Hx. }
    rewrite <- Eu. destruct (greedy_stays (if first then fp else cp) cp us Scur Sc C) as (bodies & Nb & Fb & Ib & Eb & St & One).
    { rewrite Eu. apply Forall_join; [split; discriminate|]. eapply Forall_impl; [|exact F]. intros x Hx. apply Hx. }
    exists bodies. split; [exact Nb|]. split; [exact Fb|]. split; [exact Ib|]. split; [rewrite Eb; reflexivity|]. split; [exact St|]. intros _. exact One.
Qed.
Lemma segment_again : forall fp cp s, spaced fp -> spaced cp -> Forall (fun l => sparse true l /\ firm l /\ inside l) (soft_lines s) ->
  exists bodies, bodies <> [] /\ Forall firm bodies /\ Forall inside bodies
    /\ wrap_text_first_line_segment U s fp cp lw = join [c_nl] (rows fp cp bodies)
    /\ wrap_text_first_line_segment U (join [soft] bodies) fp cp lw = join [c_nl] (rows fp cp bodies).
Proof.
  intros fp cp s Sf Sc F. unfold wrap_text_first_line_segment at 1. change (split_on c_nul s) with (soft_lines s).
  pose proof (split_on_nonempty soft s) as N. fold (soft_lines s) in N. pose proof (join_split_on soft s) as J. fold (soft_lines s) in J.
  destruct (soft_lines s) as [|a [|b r]] eqn:E; [congruence| |].
  - cbn [join] in J. subst a. inversion F as [|? ? (Sp & Fi & Is) _]; subst. destruct (units_of s Sp) as (us & C & Eu).
    destruct (greedy_stays fp cp us Sf Sc C ltac:(rewrite Eu; exact Is)) as (bodies & Nb & Fb & Ib & Eb & St & One). rewrite Eu in Eb.
    exists bodies. split; [exact Nb|]. split; [exact Fb|]. split; [exact Ib|]. split; [exact Eb|]. apply again_segment; assumption.
  - destruct (first_pass fp cp (a :: b :: r) true [] fp eq_refl Sf Sc ltac:(discriminate) F) as (bodies & Nb & Fb & Ib & Eb & St & One).
    exists bodies. split; [exact Nb|]. split; [exact Fb|]. split; [exact Ib|]. split; [exact Eb|]. apply again_segment; try assumption. apply One. cbn [List.length]. lia.
Qed.
End Second.

(** ** Reading the lines back *)
Fixpoint marked (Bs : list (list str)) : list str :=
  match Bs with
  | [] => []
  | B :: r => match r with [] => B | _ => removelast B ++ [last B [] ++ [c_sp; c_sp]] ++ marked r end
  end.
Lemma rows_app : forall fp cp X Y, X <> [] -> rows fp cp (X ++ Y) = rows fp cp X ++ rows cp cp Y.
Proof. intros fp cp [|x X] Y N; [congruence|]. cbn [app rows]. rewrite map_app. destruct Y; reflexivity. Qed.
Lemma join_mark : forall fp cp B, B <> [] ->
  join [c_nl] (rows fp cp (removelast B ++ [last B [] ++ [c_sp; c_sp]])) = join [c_nl] (rows fp cp B) ++ [c_sp; c_sp].
Proof.
  intros fp cp B N. destruct (exists_last N) as (A & z & ->). rewrite removelast_last, last_last. destruct A as [|a A].
  - cbn [app rows map join]. rewrite <- app_assoc. reflexivity.
  - rewrite !rows_app by discriminate. rewrite !(join_app2 [c_nl] (rows fp cp (a :: A))); try discriminate. cbn [rows map join]. rewrite <- !app_assoc. reflexivity.
Qed.
Lemma marked_ne : forall Bs, Bs <> [] -> Forall (fun B => B <> []) Bs -> marked Bs <> [].
Proof.
  intros [|B [|B2 r]] N F; [congruence|inversion F; assumption|]. cbn [marked]. destruct (removelast B); discriminate.
Qed.
Lemma rows_nil : forall fp cp B, B <> [] -> rows fp cp B <> [].
Proof. intros fp cp [|b B] N; [congruence|discriminate]. Qed.
Lemma written : forall cp Bs fp B, Forall (fun B => B <> []) (B :: Bs) ->
  join hard_break (map (join [c_nl]) (rows fp cp B :: map (rows cp cp) Bs)) = join [c_nl] (rows fp cp (marked (B :: Bs))).
Proof.
  intros cp. induction Bs as [|B2 Bs IH]; intros fp B F; [reflexivity|]. inversion F as [|? ? NB F']; subst.
  cbn [map] in *. rewrite join_cons, (IH cp B2 F'). change (marked (B :: B2 :: Bs)) with (removelast B ++ [last B [] ++ [c_sp; c_sp]] ++ marked (B2 :: Bs)).
  rewrite (app_assoc (removelast B)), rows_app by (destruct (removelast B); discriminate).
  rewrite (join_app2 [c_nl]); [|apply rows_nil; destruct (removelast B); discriminate|apply rows_nil, marked_ne; [discriminate|exact F']].
  rewrite join_mark by exact NB. unfold hard_break. rewrite <- !app_assoc. reflexivity.
Qed.
Lemma strip_firm : forall l, firm l -> strip_suffix [c_sp; c_sp] l = None.
Proof.
  intros l [_ (a & c & -> & Wc)]. destruct (strip_suffix [c_sp; c_sp] (a ++ [c])) as [b|] eqn:E; [|reflexivity]. exfalso.
  apply strip_suffix_some in E. change [c_sp; c_sp] with ([c_sp] ++ [c_sp]) in E. rewrite app_assoc in E. apply app_inj_tail in E. destruct E as [_ ->]. discriminate.
Qed.
Lemma strip_mark : forall z, strip_suffix [c_sp; c_sp] (z ++ [c_sp; c_sp]) = Some z.
Proof. intro z. apply strip_suffix_some. reflexivity. Qed.
Lemma rejoin_plain : forall B, Forall firm B -> rejoin B = join [soft] B.
Proof.
  induction B as [|b B IH]; intro F; [reflexivity|]. inversion F; subst. destruct B as [|b2 B]; [reflexivity|].
  rewrite join_cons, <- (IH H2). change (rejoin (b :: b2 :: B)) with (match strip_suffix [c_sp; c_sp] b with Some x => x ++ [c_nl] | None => b ++ [soft] end ++ rejoin (b2 :: B)).
  rewrite (strip_firm b H1), <- app_assoc. reflexivity.
Qed.
Lemma rejoin_mark : forall B M, B <> [] -> Forall firm B -> M <> [] ->
  rejoin (removelast B ++ [last B [] ++ [c_sp; c_sp]] ++ M) = join [soft] B ++ [c_nl] ++ rejoin M.
Proof.
  induction B as [|b B IH]; intros M N F Nm; [congruence|]. inversion F; subst. destruct B as [|b2 B].
  - cbn [removelast last app join]. destruct M as [|m M]; [congruence|].
    change (rejoin ((b ++ [c_sp; c_sp]) :: m :: M)) with (match strip_suffix [c_sp; c_sp] (b ++ [c_sp; c_sp]) with Some x => x ++ [c_nl] | None => (b ++ [c_sp; c_sp]) ++ [soft] end ++ rejoin (m :: M)).
    rewrite strip_mark, <- app_assoc. reflexivity.
  - change (removelast (b :: b2 :: B)) with (b :: removelast (b2 :: B)). change (last (b :: b2 :: B) []) with (last (b2 :: B) []).
    rewrite join_cons, <- !app_assoc. rewrite <- (IH M ltac:(discriminate) H2 Nm).
    cbn [app]. destruct (removelast (b2 :: B) ++ (last (b2 :: B) [] ++ [c_sp; c_sp]) :: M) as [|x X] eqn:Q; [destruct (removelast (b2 :: B)); discriminate|].
    change (rejoin (b :: x :: X)) with (match strip_suffix [c_sp; c_sp] b with Some x => x ++ [c_nl] | None => b ++ [soft] end ++ rejoin (x :: X)).
    rewrite (strip_firm b H1), <- app_assoc. reflexivity.
Qed.
Lemma rejoin_marked : forall Bs, Forall (fun B => B <> []) Bs -> Forall (Forall firm) Bs -> rejoin (marked Bs) = join [c_nl] (map (join [soft]) Bs).
Proof.
  induction Bs as [|B Bs IH]; intros N F; [reflexivity|]. inversion N; subst. inversion F; subst. destruct Bs as [|B2 Bs].
  - cbn [marked map join]. apply rejoin_plain. assumption.
  - change (marked (B :: B2 :: Bs)) with (removelast B ++ [last B [] ++ [c_sp; c_sp]] ++ marked (B2 :: Bs)).
    rewrite rejoin_mark; [|assumption|assumption|apply marked_ne; [discriminate|assumption]]. rewrite (IH H2 H4). cbn [map]. rewrite join_cons. reflexivity.
Qed.
Lemma marked_chars : forall Bs, Forall (Forall inside) Bs -> Forall (Forall (fun c => c <> c_nl)) (marked Bs).
Proof.
  assert (Q : forall b, inside b -> Forall (fun c => c <> c_nl) b) by (intros b H; eapply Forall_impl; [|exact H]; intros x [_ Hx]; exact Hx).
  induction Bs as [|B Bs IH]; intro F; [constructor|]. inversion F as [|? ? F1 F2]; subst.
  assert (FB : Forall (Forall (fun c => c <> c_nl)) B) by (eapply Forall_impl; [|exact F1]; exact Q).
  destruct Bs as [|B2 Bs]; [exact FB|]. change (marked (B :: B2 :: Bs)) with (removelast B ++ [last B [] ++ [c_sp; c_sp]] ++ marked (B2 :: Bs)).
  destruct B as [|b B].
  - apply Forall_app. split; [constructor|]. constructor; [repeat constructor; discriminate|]. apply IH. exact F2.
  - destruct (@exists_last _ (b :: B)) as (A & z & E); [discriminate|]. rewrite E in *. rewrite removelast_last, last_last. apply Forall_app in FB. destruct FB as [FA Fz].
    apply Forall_app. split; [exact FA|]. constructor; [apply Forall_app; split; [exact (Forall_inv Fz)|repeat constructor; discriminate]|]. apply IH. exact F2.
Qed.
Lemma skip_rows : forall fp cp M, Forall (Forall (fun c => c <> c_nl)) M -> Forall (fun c => c <> c_nl) fp -> Forall (fun c => c <> c_nl) cp -> M <> [] ->
  reread fp cp (join [c_nl] (rows fp cp M)) = rejoin M.
Proof.
  intros fp cp M F Ff Fc N. unfold reread. destruct M as [|m M]; [congruence|]. inversion F as [|? ? F1 F2]; subst. cbn [rows].
  rewrite split_on_join; [|discriminate|].
  - rewrite skipn_app, skipn_all, Nat.sub_diag. cbn [app skipn]. f_equal. f_equal. rewrite map_map. rewrite <- (map_id M) at 2. apply map_ext.
    intro x. rewrite skipn_app, skipn_all, Nat.sub_diag. reflexivity.
  - constructor; [apply Forall_app; auto|]. apply Forall_map. eapply Forall_impl; [|exact F2]. intros x Hx. apply Forall_app. auto.
Qed.
Lemma reread_written : forall fp cp B Bs, Forall (fun B => B <> []) (B :: Bs) -> Forall (Forall firm) (B :: Bs) -> Forall (Forall inside) (B :: Bs) ->
  Forall (fun c => c <> c_nl) fp -> Forall (fun c => c <> c_nl) cp ->
  reread fp cp (join hard_break (map (join [c_nl]) (rows fp cp B :: map (rows cp cp) Bs))) = join [c_nl] (map (join [soft]) (B :: Bs)).
Proof.
  intros fp cp B Bs N F I Ff Fc. rewrite written by exact N. rewrite skip_rows; [|apply marked_chars; exact I|exact Ff|exact Fc|apply marked_ne; [discriminate|exact N]].
  apply rejoin_marked; assumption.
Qed.
Lemma segments_joined : forall Bs, Bs <> [] -> Forall (Forall inside) Bs -> segments (join [c_nl] (map (join [soft]) Bs)) = map (join [soft]) Bs.
Proof.
  intros Bs N I. unfold segments. apply split_on_join; [destruct Bs; [congruence|discriminate]|]. apply Forall_map. eapply Forall_impl; [|exact I]. intros B HB.
  apply Forall_join; [discriminate|]. eapply Forall_impl; [|exact HB]. intros b Hb. eapply Forall_impl; [|exact Hb]. intros x [_ Hx]. exact Hx.
Qed.

(** ** What the conditions on the text mean for its lines *)
Lemma sparse_of : forall l prev, (forall a b, (if prev : bool then [c_sp] else []) ++ l <> a ++ c_sp :: c_sp :: b) -> Forall (fun c => is_ws c = true -> c = c_sp) l ->
  (l = [] -> prev = false) -> (forall a c, l = a ++ [c] -> is_ws c = false) -> sparse prev l.
Proof.
  induction l as [|c l IH]; intros prev Nd F N E; cbn [sparse]; [auto|]. inversion F as [|? ? F1 F2]; subst. split; [|split; [exact F1|]].
  - intros ->. destruct prev; [|reflexivity]. exfalso. exact (Nd [] l eq_refl).
  - apply IH; auto.
    + intros a b K. destruct (ceq c c_sp) eqn:Q.
      * apply ceq_true in Q. subst c. apply (Nd ((if prev then [c_sp] else []) ++ a) b). rewrite <- app_assoc. f_equal. exact K.
      * apply (Nd ((if prev then [c_sp] else []) ++ c :: a) b). rewrite <- app_assoc. cbn [app] in K. subst l. reflexivity.
    + intros ->. destruct (ceq c c_sp) eqn:Q; [|reflexivity]. apply ceq_true in Q. subst c. specialize (E [] c_sp eq_refl). discriminate.
    + intros a c' ->. apply (E (c :: a) c'). reflexivity.
Qed.
Lemma in_split_on : forall c s l, In l (split_on c s) -> exists a b, s = a ++ l ++ b.
Proof.
  intros c s l I. rewrite <- (join_split_on c s). apply in_split in I. destruct I as (x & y & ->).
  assert (P : forall (z : list str), exists q, join [c] (l :: z) = l ++ q).
  { intros [|z0 z]; [exists []; cbn; rewrite app_nil_r; reflexivity|]. rewrite join_cons. eauto. }
  destruct (P y) as [q Eq]. destruct x as [|x0 x].
  - exists [], q. exact Eq.
  - change (l :: y) with (l :: y). rewrite (join_app2 [c] (x0 :: x) (l :: y)); [|discriminate|discriminate]. rewrite Eq. exists (join [c] (x0 :: x) ++ [c]), q. rewrite <- !app_assoc. reflexivity.
Qed.
Lemma trimmed_firm : forall l, trimmed l -> firm l.
Proof.
  intros l [T N]. unfold trim in T. assert (Ts : trim_start l = l).
  { destruct (trim_end_app (trim_start l)) as (w & E & _). destruct (trim_start_app l) as (v & E2 & _). rewrite T in E.
    assert (Z : List.length l = List.length v + (List.length l + List.length w)) by (rewrite E2 at 1; rewrite E, !app_length; reflexivity).
    destruct v; [symmetry; exact E2|cbn in Z; lia]. }
  rewrite Ts in T. split.
  - destruct l as [|c r]; [congruence|]. exists c, r. split; [reflexivity|]. unfold trim_start in Ts. destruct (is_ws c) eqn:Wc; [|reflexivity]. exfalso.
    cbn [drop_while] in Ts. rewrite Wc in Ts. destruct (trim_start_app r) as (v & E & _). unfold trim_start in E. rewrite Ts in E. apply (f_equal (@List.length char)) in E. rewrite app_length in E. cbn in E. lia.
  - destruct (trim_end_last l) as [K|(a & c & E & Wc)]; [congruence|]. exists a, c. split; [congruence|exact Wc].
Qed.
Lemma spaced_lines : forall t s l, single_spaced t -> In s (segments t) -> In l (soft_lines s) -> sparse true l /\ firm l /\ inside l.
Proof.
  intros t s l (Tr & Nd & Ws) Is Il. rewrite Forall_forall in Tr. specialize (Tr s Is). rewrite Forall_forall in Tr. specialize (Tr l Il).
  pose proof (trimmed_firm l Tr) as F. unfold segments in Is. unfold soft_lines in Il.
  pose proof (split_on_forall c_nl t) as Sn. rewrite Forall_forall in Sn. specialize (Sn s Is). pose proof (split_on_forall soft s) as Ss. rewrite Forall_forall in Ss. specialize (Ss l Il).
  destruct (in_split_on _ _ _ Is) as (a1 & b1 & E1). destruct (in_split_on _ _ _ Il) as (a2 & b2 & E2).
  assert (Nl : Forall (fun c => c <> c_nl) l) by (rewrite E2 in Sn; apply Forall_app in Sn; destruct Sn as [_ Sn]; apply Forall_app in Sn; apply Sn).
  assert (Wl : Forall (fun c => is_ws c = true -> c = c_sp) l).
  { rewrite E1, E2 in Ws. apply Forall_app in Ws. destruct Ws as [_ Ws]. apply Forall_app in Ws. destruct Ws as [Ws _]. apply Forall_app in Ws. destruct Ws as [_ Ws]. apply Forall_app in Ws. destruct Ws as [Ws _].
    rewrite Forall_forall in *. intros c Ic Wc. destruct (Ws c Ic Wc) as [->| ->]; [reflexivity|]. destruct (Nl _ Ic eq_refl). }
  split; [|split; [exact F|]].
  - destruct F as [(c0 & r0 & E0 & W0) (a & c & Ea & Wc)]. apply sparse_of.
    + intros x y K. destruct x as [|x0 x].
      * injection K as K. rewrite E0 in K. injection K as -> _. discriminate.
      * injection K as _ K. apply (Nd (a1 ++ a2 ++ x) (y ++ b2 ++ b1)). rewrite E1, E2, K, <- !app_assoc. reflexivity.
    + exact Wl.
    + intro K. rewrite K in E0. discriminate.
    + intros a' c' K. rewrite Ea in K. apply app_inj_tail in K. destruct K as [_ <-]. exact Wc.
  - unfold inside. rewrite Forall_forall in *. intros c Ic. auto.
Qed.
