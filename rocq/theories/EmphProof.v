(** Proofs about SpecEmph: a clear layout reads as what is laid out. *)
From Coq Require Import Bool Arith NArith Lia ZifyBool ZifyNat ZifyN String List.
From Verif Require Import Base BaseFacts SpecInline SpecText EscapeProof TextProof.
From Verif Require Import SpecEmph.
Import ListNotations.

Section Laws.
Variable ENT : str -> option str.
Variables space punct : char -> bool.
Variable defs : str -> option (str * str).
Variable notes : str -> bool.
Variable raw : str -> option (inl * nat).

(** ** Tokens *)
Lemma closing_run_shorter : forall n k s body rest, closing_run n k s = Some (body, rest) ->
  List.length rest <= List.length s.
Proof.
  induction n as [|n IH]; [discriminate|]. intros k s body rest. cbn [closing_run].
  destruct s as [|c r]; [discriminate|]. destruct (ceq c c_bt).
  - destruct (_ =? k).
    + intro H. injection H as <- <-. rewrite skipn_length. lia.
    + destruct (closing_run n k (skipn _ (c :: r))) as [[x y]|] eqn:E; [|discriminate].
      intro H. injection H as <- <-. apply IH in E. rewrite skipn_length in E. lia.
  - destruct (closing_run n k r) as [[x y]|] eqn:E; [|discriminate].
    intro H. injection H as <- <-. apply IH in E. cbn [List.length]. lia.
Qed.
Lemma code_span_shorter : forall s content rest, parse_code_span s = Some (content, rest) ->
  List.length rest < List.length s.
Proof.
  intros s content rest. unfold parse_code_span.
  destruct (count_ticks s =? 0) eqn:Z; [discriminate|].
  destruct (closing_run _ _ _) as [[body q]|] eqn:E; [|discriminate].
  intro H. injection H as <- <-. apply closing_run_shorter in E. rewrite skipn_length in E.
  destruct s; [discriminate Z|]. cbn [List.length] in *. lia.
Qed.


(** ** Lengths *)
Lemma drop_gap_length : forall s : str, List.length (drop_while gap s) <= List.length s.
Proof. induction s as [|c r IH]; cbn [drop_while List.length]; [lia|]. destruct (gap c); cbn [List.length]; lia. Qed.
Lemma destination_length : forall s d, List.length (snd (destination d s)) <= List.length s.
Proof.
  assert (K : forall n s d, List.length s <= n -> List.length (snd (destination d s)) <= List.length s).
  { induction n as [|n IH]; intros s d L; (destruct s as [|c r]; [reflexivity|]); cbn [List.length] in L; [lia|].
    cbn [destination].
    assert (A : forall k r', List.length r' <= n -> List.length (snd (let (a, b) := destination k r' in (c :: a, b))) <= List.length r').
    { intros k r' L'. specialize (IH r' k L'). destruct (destination k r'). exact IH. }
    destruct (ceq c c_bs).
    - destruct r as [|e r']; [cbn; lia|]. cbn [List.length] in L. destruct (is_ascii_punct e).
      + specialize (IH r' d ltac:(lia)). destruct (destination d r'). cbn [snd List.length] in *. lia.
      + refine (Nat.le_trans _ _ _ (A d (e :: r') _) _); cbn [List.length]; lia.
    - destruct (ceq c c_lpar); [refine (Nat.le_trans _ _ _ (A (S d) r _) _); cbn [List.length]; lia|].
      destruct (ceq c c_rpar).
      + destruct d as [|d]; [reflexivity|]. refine (Nat.le_trans _ _ _ (A d r _) _); cbn [List.length]; lia.
      + destruct (bare c); [refine (Nat.le_trans _ _ _ (A d r _) _); cbn [List.length]; lia|reflexivity]. }
  intros s d. apply (K (List.length s)). lia.
Qed.
Lemma delimited_length : forall e never s a b, delimited e never s = Some (a, b) -> List.length b < List.length s.
Proof.
  intros e never.
  assert (K : forall n s a b, List.length s <= n -> delimited e never s = Some (a, b) -> List.length b < List.length s).
  { induction n as [|n IH]; intros s a b L; (destruct s as [|c r]; [discriminate|]); cbn [List.length] in L; [lia|].
    cbn [delimited]. destruct (ceq c c_bs).
    - destruct r as [|f r']; [discriminate|]. destruct (delimited e never r') as [[x y]|] eqn:E; [|discriminate].
      intro H. injection H as <- <-. apply IH in E; cbn [List.length] in *; lia.
    - destruct (ceq c e).
      + intro H. injection H as <- <-. cbn [List.length]. lia.
      + destruct (never c); [discriminate|]. destruct (delimited e never r) as [[x y]|] eqn:E; [|discriminate].
        intro H. injection H as <- <-. apply IH in E; cbn [List.length] in *; lia. }
  intros s a b. apply (K (List.length s)). lia.
Qed.
Lemma title_length : forall s a b, title_at s = Some (a, b) -> List.length b < List.length s.
Proof.
  intros [|c r] a b; [discriminate|]. cbn [title_at List.length]. destruct (_ || _).
  - intro H. apply delimited_length in H. lia.
  - destruct (ceq c c_lpar); [|discriminate]. intro H. apply delimited_length in H. lia.
Qed.
Lemma inline_tail_length : forall s u t rest, inline_tail ENT s = Some (u, t, rest) -> List.length rest <= List.length s.
Proof.
  intros [|c r] u t rest; [discriminate|]. cbn [inline_tail]. destruct (ceq c c_lpar); [|discriminate].
  pose proof (drop_gap_length r) as G1. destruct (drop_while gap r) as [|d r2] eqn:E1; [discriminate|].
  destruct (if ceq d c_lt then _ else _) as [[url r3]|] eqn:E2; [|discriminate].
  assert (G2 : List.length r3 <= List.length (d :: r2)).
  { destruct (ceq d c_lt).
    - apply delimited_length in E2. cbn [List.length]. lia.
    - assert (E2' : destination 0 (d :: r2) = (url, r3)) by congruence. pose proof (destination_length (d :: r2) 0) as D. rewrite E2' in D. exact D. }
  pose proof (drop_gap_length r3) as G3.
  destruct (if _ <? _ then _ else None) as [[title r5]|] eqn:E3.
  - destruct (_ <? _); [|discriminate E3]. apply title_length in E3. pose proof (drop_gap_length r5) as G5.
    destruct (drop_while gap r5) as [|e r6]; [discriminate|]. destruct (ceq e c_rpar); [|discriminate].
    intro H. injection H as _ _ <-. cbn [List.length] in *. lia.
  - destruct (drop_while gap r3) as [|e r6]; [discriminate|]. destruct (ceq e c_rpar); [|discriminate].
    intro H. injection H as _ _ <-. cbn [List.length] in *. lia.
Qed.
Lemma link_tail_length : forall i s u t rest, link_tail ENT defs i s = Some (u, t, rest) -> List.length rest <= List.length s.
Proof.
  intros i s u t rest. unfold link_tail. destruct (inline_tail ENT s) as [[[u' t'] r']|] eqn:E.
  { intro H. injection H as <- <- <-. exact (inline_tail_length _ _ _ _ E). }
  destruct (match s with [] => None | c :: r => _ end) as [[l r']|] eqn:E2.
  - destruct (defined _ _) as [[u' t']|]; [|discriminate]. intro H. injection H as <- <- <-.
    destruct s as [|c r]; [discriminate E2|]. destruct (ceq c c_lbr); [|discriminate E2]. apply delimited_length in E2. cbn [List.length]. lia.
  - destruct (defined _ _) as [[u' t']|]; [|discriminate]. intro H. injection H as <- <- <-. lia.
Qed.
Lemma autolink_length : forall s u rest, autolink_at s = Some (u, rest) -> List.length rest <= List.length s.
Proof.
  intros s u rest. unfold autolink_at. set (scheme := take_while _ s).
  destruct scheme as [|a sc] eqn:E; [discriminate|]. rewrite <- E. destruct (skipn (List.length scheme) s) as [|c r] eqn:E2; [discriminate|].
  destruct (_ && _); [|discriminate]. set (body := take_while _ r). destruct (skipn (List.length body) r) as [|e q] eqn:E3; [discriminate|].
  destruct (ceq e c_gt); [|discriminate]. intro H. injection H as _ <-.
  apply (f_equal (@List.length char)) in E2, E3. rewrite skipn_length in E2, E3. cbn [List.length] in E2, E3. lia.
Qed.

Local Notation scan := (scan ENT space punct defs notes raw).
Lemma scan_enough : forall n m b s cur fs, List.length s <= n -> List.length s <= m ->
  scan n b s cur fs = scan m b s cur fs.
Proof.
  induction n as [|n IH]; intros m b s cur fs Hn Hm.
  - destruct s; [destruct m; reflexivity|cbn in Hn; lia].
  - destruct s as [|c r]; [destruct m; reflexivity|]. destruct m as [|m]; [cbn in Hm; lia|].
    cbn [SpecEmph.scan]. cbn [List.length] in Hn, Hm. destruct (is_mark c).
    { cbn [take_while]. rewrite ceq_refl. cbn [List.length skipn]. apply IH; rewrite skipn_length; lia. }
    destruct (ceq_spec c c_bt) as [->|Nb].
    { destruct (parse_code_span (c_bt :: r)) as [[x y]|] eqn:E.
      - apply code_span_shorter in E. cbn [List.length] in E. apply IH; lia.
      - unfold count_ticks. cbn [take_while]. rewrite ceq_refl. cbn [List.length skipn]. apply IH; rewrite skipn_length; lia. }
    destruct (ceq c c_lt).
    { destruct (autolink_at r) as [[u q]|] eqn:E; [apply autolink_length in E; apply IH; lia|].
      destruct (raw r) as [[i k]|]; [|apply IH; lia]. apply IH; rewrite skipn_length; lia. }
    destruct (ceq c c_lbr); [apply IH; lia|].
    destruct (ceq c c_bang && starts_with [c_lbr] r).
    { assert (List.length (tl r) <= List.length r) by (destruct r; cbn; lia). apply IH; lia. }
    destruct (ceq c c_rbr).
    { destruct fs as [|f fs]; [apply IH; lia|].
      destruct (if f_active f then _ else _) as [[[u t] q]|] eqn:E.
      - destruct (f_active f); [|discriminate E]. apply link_tail_length in E. apply IH; lia.
      - destruct (if f_active f && _ then _ else _) as [name|]; [destruct (notes name)|]; apply IH; lia. }
    destruct (first_piece_prefix ENT c r) as (s' & E & L). rewrite E, skipn_app_len.
    apply (f_equal (@List.length char)) in E. rewrite app_length in E. cbn [List.length] in E. apply IH; lia.
Qed.
(** The scan with enough fuel. *)
Definition sc (b : option char) (s : str) (cur : list token) (fs : list frame) : list token := scan (List.length s) b s cur fs.

Lemma take_run : forall c n (rest : str), hd_error rest <> Some c ->
  take_while (ceq c) (repeat c n ++ rest) = repeat c n.
Proof.
  intros c n rest H. induction n as [|n IH]; cbn [repeat app].
  - destruct rest as [|d r]; [reflexivity|]. cbn [take_while].
    destruct (ceq_spec c d) as [->|]; [contradiction H; reflexivity|reflexivity].
  - cbn [take_while]. rewrite ceq_refl. f_equal. exact IH.
Qed.
Lemma sc_run : forall b c n rest cur fs, 0 < n -> is_mark c = true -> hd_error rest <> Some c ->
  sc b (repeat c n ++ rest) cur fs
  = sc (Some c) rest (TRun c n (can_open space punct c b (hd_error rest)) (can_close space punct c b (hd_error rest)) :: cur) fs.
Proof.
  intros b c [|n] rest cur fs Z M H; [lia|]. unfold sc at 1. cbn [repeat app List.length SpecEmph.scan]. rewrite M.
  change (c :: repeat c n ++ rest) with (repeat c (S n) ++ rest).
  rewrite (take_run c (S n) rest H), repeat_length.
  replace (skipn (S n) (repeat c (S n) ++ rest)) with rest
    by (rewrite <- (repeat_length c (S n)) at 1; symmetry; apply skipn_app_len).
  unfold sc. apply scan_enough; [|lia]. rewrite app_length. lia.
Qed.
Lemma sc_code : forall b s content rest cur fs, code_span s content -> hd_error rest <> Some c_bt ->
  sc b (s ++ rest) cur fs = sc (Some c_bt) rest (TCode content :: cur) fs.
Proof.
  intros b s content rest cur fs [[q ->] C] H. specialize (C rest H). unfold sc.
  change ((c_bt :: q ++ [c_bt]) ++ rest) with (c_bt :: (q ++ [c_bt]) ++ rest) in *.
  cbn [List.length SpecEmph.scan]. change (is_mark c_bt) with false. cbv iota. rewrite ceq_refl, C.
  apply scan_enough; [|lia]. rewrite app_length. lia.
Qed.

Lemma head_run_stop : forall r rest, (forall c, hd_error rest = Some c -> continues_reference c = false) ->
  head_run (r ++ rest) = head_run r.
Proof.
  intros r rest H. unfold head_run. induction r as [|c r IH]; cbn [app take_while].
  - destruct rest as [|d q]; [reflexivity|]. cbn [take_while]. change (ref_char d) with (continues_reference d).
    rewrite (H d eq_refl). reflexivity.
  - destruct (ref_char c); [f_equal; exact IH|reflexivity].
Qed.
Lemma first_piece_app : forall c r rest,
  (forall d, hd_error rest = Some d -> continues_reference d = false) ->
  first_piece ENT c r <> Plain c_bs -> first_piece ENT c (r ++ rest) = first_piece ENT c r.
Proof.
  intros c r rest H N. unfold first_piece in *. destruct (ceq_spec c c_bs) as [->|].
  - destruct r as [|d r]; [contradiction N; reflexivity|]. reflexivity.
  - destruct (ceq_spec c c_amp) as [->|]; [|reflexivity].
    rewrite (reference_head ENT (r ++ rest)), (head_run_stop r rest H), <- (reference_head ENT). reflexivity.
Qed.
Lemma last_of_app : forall a b o, last_of (a ++ b) o = last_of b (last_of a o).
Proof.
  intros a b o. unfold last_of. rewrite rev_app_distr. destruct (rev b); [reflexivity|reflexivity].
Qed.

Lemma special_of_mark : forall c, is_mark c = true -> special c = true.
Proof. intros c H. unfold special. unfold is_mark in H. rewrite H. reflexivity. Qed.

(** ** The stack *)
Local Notation go ts st := (fold_left step ts st).
Definition dones (l : list inl) : list entry := rev (map Done l).
Lemma dones_app : forall a b, dones (a ++ b) = dones b ++ dones a.
Proof. intros. unfold dones. rewrite map_app, rev_app_distr. reflexivity. Qed.

Lemma go_text : forall ps st,
  go (map TText ps) st = dones (map Chr (flat_map meaning ps)) ++ st.
Proof.
  induction ps as [|p ps IH]; intro st; [reflexivity|]. cbn [map fold_left step flat_map].
  rewrite IH. rewrite map_app, dones_app, <- app_assoc. unfold dones at 3. rewrite map_map. reflexivity.
Qed.
Lemma opener_dones : forall c orig opens l inner st,
  opener c orig opens inner (dones l ++ st) = opener c orig opens (l ++ inner) st.
Proof.
  intros c orig opens l. induction l as [|x l IH] using rev_ind; intros inner st; [reflexivity|].
  rewrite dones_app. cbn [dones map rev app opener]. rewrite IH, <- app_assoc. reflexivity.
Qed.
Definition width (strong : bool) : nat := if strong then 2 else 1.
Lemma closing : forall strong c l opens closes st,
  step (dones l ++ Open c (width strong) (width strong) closes :: st) (TRun c (width strong) opens true)
  = Done ((if strong then St else Em) l) :: st.
Proof.
  intros strong c l opens closes st. cbn [step].
  destruct strong; cbn [close width Nat.eqb]; rewrite opener_dones, app_nil_r; cbn [opener]; rewrite ceq_refl;
    destruct closes, opens; reflexivity.
Qed.
(** The openers on the stack are the enclosing marks. *)
Fixpoint frames (st : list entry) (around : list (bool * char)) : Prop :=
  match st, around with
  | [], [] => True
  | Done _ :: r, _ => frames r around
  | Open c n o _ :: r, (strong, d) :: l => c = d /\ n = width strong /\ o = width strong /\ frames r l
  | _, _ => False
  end.
Lemma frames_dones : forall l st around, frames st around -> frames (dones l ++ st) around.
Proof.
  intros l. unfold dones. induction (rev (map Done l)) as [|x q IH] eqn:E in l |- *; intros st around F; [exact F|].
  assert (Q : exists i m, x = Done i /\ q = dones m).
  { destruct l as [|i m] using rev_ind; [discriminate E|]. rewrite map_app, rev_app_distr in E.
    injection E as <- <-. exists i, m. split; reflexivity. }
  destruct Q as (i & m & -> & ->). cbn [app frames]. apply (IH m eq_refl). exact F.
Qed.
Lemma no_opener : forall strong c st around inner, frames st around -> ~ In (strong, c) around ->
  opener c (width strong) true inner st = None.
Proof.
  intros strong c st. induction st as [|[i|d n o cl] st IH]; intros around inner F N; [reflexivity|apply (IH around _ F N)|].
  destruct around as [|[s d'] l]; [destruct F|]. destruct F as (-> & -> & -> & F). cbn [opener].
  destruct (ceq_spec c d') as [->|].
  - destruct strong, s; try (contradiction N; left; reflexivity);
      rewrite orb_true_r; change (true && pairs _ _ true) with false; cbv iota;
      apply (IH l _ F); intro; apply N; right; assumption.
  - cbn [andb]. apply (IH l _ F). intro; apply N; right; assumption.
Qed.
Lemma opening : forall strong c closes st around, frames st around ->
  (closes = true -> ~ In (strong, c) around) ->
  step st (TRun c (width strong) true closes) = Open c (width strong) (width strong) closes :: st.
Proof.
  intros strong c closes st around F N. cbn [step]. destruct closes.
  - replace (close (width strong) c (width strong) (width strong) true st) with (width strong, st).
    + destruct strong; reflexivity.
    + pose proof (no_opener strong c st around [] F (N eq_refl)) as K.
      destruct strong; cbn [width close Nat.eqb] in *; rewrite K; reflexivity.
  - destruct strong; reflexivity.
Qed.

Lemma next_app : forall s rest, next s (hd_error rest) = hd_error (s ++ rest).
Proof. intros [|c s] rest; reflexivity. Qed.
Lemma mark_width : forall strong c, mark strong c = repeat c (width strong).
Proof. destruct strong; reflexivity. Qed.
Lemma last_mark : forall strong c o, last_of (mark strong c) o = Some c.
Proof. destruct strong; reflexivity. Qed.


(** ** Links *)
Lemma dest_stop : forall u d X, destination d (u ++ [c_rpar]) = (u, [c_rpar]) ->
  (exists c r, X = c :: r /\ (c = c_rpar \/ c = c_sp)) -> destination d (u ++ X) = (u, X).
Proof.
  assert (K : forall n u d X, List.length u <= n -> destination d (u ++ [c_rpar]) = (u, [c_rpar]) ->
    (exists c r, X = c :: r /\ (c = c_rpar \/ c = c_sp)) -> destination d (u ++ X) = (u, X)).
  2:{ intros u d X. apply (K (List.length u)). lia. }
  induction n as [|n IH]; intros u d X L H E.
  - destruct u; [|cbn in L; lia]. cbn [app] in *. destruct d; [|discriminate H].
    destruct E as (c & r & -> & [->| ->]); reflexivity.
  - destruct u as [|c u].
    { cbn [app] in *. destruct d; [|discriminate H]. destruct E as (c & r & -> & [->| ->]); reflexivity. }
    cbn [List.length] in L. cbn [app destination] in *.
    assert (A : forall k v, List.length v <= n ->
      (let (a, b) := destination k (v ++ [c_rpar]) in (c :: a, b)) = (c :: v, [c_rpar]) ->
      (let (a, b) := destination k (v ++ X) in (c :: a, b)) = (c :: v, X)).
    { intros k v Lv Q. destruct (destination k (v ++ [c_rpar])) as [a b] eqn:D. injection Q as -> ->.
      rewrite (IH v k X Lv D E). reflexivity. }
    destruct (ceq c c_bs).
    + destruct u as [|e u].
      { cbn [app] in H. change (is_ascii_punct c_rpar) with true in H. cbv iota in H. cbn in H. discriminate H. }
      cbn [app] in *. cbn [List.length] in L. destruct (is_ascii_punct e).
      * destruct (destination d (u ++ [c_rpar])) as [a b] eqn:D. injection H as -> ->.
        rewrite (IH u d X ltac:(lia) D E). reflexivity.
      * exact (A d (e :: u) ltac:(cbn [List.length]; lia) H).
    + destruct (ceq c c_lpar); [exact (A (S d) u ltac:(lia) H)|].
      destruct (ceq c c_rpar).
      * destruct d as [|d]; [discriminate H|]. exact (A d u ltac:(lia) H).
      * destruct (bare c); [exact (A d u ltac:(lia) H)|discriminate H].
Qed.
Lemma delimited_stop : forall e never t rest, delimited e never (t ++ [e]) = Some (t, []) ->
  delimited e never (t ++ e :: rest) = Some (t, rest).
Proof.
  intros e never.
  assert (K : forall n t rest, List.length t <= n -> delimited e never (t ++ [e]) = Some (t, []) ->
    delimited e never (t ++ e :: rest) = Some (t, rest)).
  2:{ intros t rest. apply (K (List.length t)). lia. }
  induction n as [|n IH]; intros t rest L H.
  - destruct t; [|cbn in L; lia]. cbn [app delimited] in *. destruct (ceq e c_bs); [discriminate H|]. rewrite ceq_refl. reflexivity.
  - destruct t as [|c t].
    { cbn [app delimited] in *. destruct (ceq e c_bs); [discriminate H|]. rewrite ceq_refl. reflexivity. }
    cbn [List.length] in L. cbn [app delimited] in *. destruct (ceq c c_bs).
    + destruct t as [|d t]; [discriminate H|]. cbn [app] in *. cbn [List.length] in L.
      destruct (delimited e never (t ++ [e])) as [[a b]|] eqn:D; [|discriminate H]. injection H as -> ->.
      rewrite (IH t rest ltac:(lia) D). reflexivity.
    + destruct (ceq c e); [discriminate H|]. destruct (never c); [discriminate H|].
      destruct (delimited e never (t ++ [e])) as [[a b]|] eqn:D; [|discriminate H]. injection H as -> ->.
      rewrite (IH t rest ltac:(lia) D). reflexivity.
Qed.
Lemma dest_head : forall u d, u <> [] -> destination d (u ++ [c_rpar]) = (u, [c_rpar]) -> gap (hd c_sp u) = false.
Proof.
  intros [|c u] d N H; [contradiction|]. cbn [hd]. destruct (gap c) eqn:G; [|reflexivity]. exfalso. cbn [app destination] in H.
  unfold gap in G. apply orb_prop in G. destruct G as [G|G]; [apply orb_prop in G; destruct G as [G|G];
    [apply orb_prop in G; destruct G as [G|G]; [apply orb_prop in G; destruct G as [G|G]|]|]|];
    apply ceq_true in G; subst c; vm_compute in H; discriminate H.
Qed.
Lemma how_tail : forall inside h url title rest, how_reads ENT defs inside h url title (hd_error rest) ->
  link_tail ENT defs inside (spell_how h ++ rest) = Some (url, title, rest).
Proof.
  intros inside h url title rest H. unfold link_tail. destruct h as [u t|l| |]; cbn [how_reads spell_how] in *.
  - destruct H as (-> & -> & (NE & LT & D & RU) & T).
    set (X := (if is_nil title then [] else [c_sp; c_dq] ++ title ++ [c_dq]) ++ [c_rpar]).
    change (([c_lpar] ++ url ++ X) ++ rest) with (c_lpar :: (url ++ X) ++ rest). cbn [inline_tail]. rewrite ceq_refl, <- app_assoc.
    pose proof (dest_head url 0 NE D) as G. destruct url as [|c url]; [contradiction|]. cbn [hd] in G.
    change ((c :: url) ++ X ++ rest) with (c :: url ++ X ++ rest). cbn [drop_while]. rewrite G.
    destruct (ceq_spec c c_lt) as [->|_]; [contradiction LT; reflexivity|].
    change (c :: url ++ X ++ rest) with ((c :: url) ++ X ++ rest).
    destruct title as [|e t].
    + change (X ++ rest) with (c_rpar :: rest) in *.
      rewrite (dest_stop (c :: url) 0 (c_rpar :: rest) D) by (do 2 eexists; split; [reflexivity|auto]).
      cbn [drop_while]. change (gap c_rpar) with false. cbv iota. rewrite Nat.ltb_irrefl, ceq_refl, RU. reflexivity.
    + destruct (T ltac:(discriminate)) as [Q RT].
      assert (EX : X ++ rest = c_sp :: c_dq :: (e :: t) ++ c_dq :: c_rpar :: rest).
      { subst X. cbn [is_nil app]. rewrite <- !app_assoc. reflexivity. }
      rewrite EX, (dest_stop (c :: url) 0 _ D) by (do 2 eexists; split; [reflexivity|auto]).
      cbn [drop_while]. change (gap c_sp) with true. change (gap c_dq) with false. cbv iota.
      match goal with |- context [?a <? ?b] => replace (a <? b) with true by (symmetry; apply Nat.ltb_lt; cbn [List.length]; lia) end.
      cbn [title_at]. change (ceq c_dq c_dq || ceq c_dq c_sq) with true. cbv iota.
      rewrite (delimited_stop c_dq (fun _ => false) (e :: t) (c_rpar :: rest) Q).
      cbn [drop_while]. change (gap c_rpar) with false. cbv iota. rewrite ceq_refl, RU, RT. reflexivity.
  - destruct H as (NE & LA & DF). rewrite <- !app_assoc. cbn [app inline_tail]. change (ceq c_lbr c_lpar) with false. cbv iota.
    rewrite ceq_refl. unfold label_at in *. rewrite (delimited_stop _ _ l rest LA).
    destruct l; [contradiction|]. cbn [is_nil]. rewrite DF. reflexivity.
  - cbn [app inline_tail]. change (ceq c_lbr c_lpar) with false. cbv iota. rewrite ceq_refl.
    unfold label_at. cbn [delimited]. change (ceq c_rbr c_bs) with false. cbv iota. rewrite ceq_refl. cbn [is_nil]. rewrite H. reflexivity.
  - destruct H as (DF & NP & NB). cbn [app]. destruct rest as [|c r].
    + cbn [inline_tail]. rewrite DF. reflexivity.
    + cbn [inline_tail]. cbn [hd_error] in NP, NB. destruct (ceq_spec c c_lpar) as [->|_]; [contradiction NP; reflexivity|].
      destruct (ceq_spec c c_lbr) as [->|_]; [contradiction NB; reflexivity|]. rewrite DF. reflexivity.
Qed.

(** ** Scanning *)
Hypothesis raw_gap : forall c r, gap c = true -> raw (c :: r) = None.

Lemma gap_cases : forall c, gap c = true -> c = c_sp \/ c = c_tab \/ c = c_nl \/ c = c_cr \/ c = c_nul.
Proof.
  intros c G. unfold gap in G. apply orb_prop in G. destruct G as [G|G]; [apply orb_prop in G; destruct G as [G|G];
    [apply orb_prop in G; destruct G as [G|G]; [apply orb_prop in G; destruct G as [G|G]|]|]|]; apply ceq_true in G; auto.
Qed.
Lemma gap_word : forall c, gap c = true -> is_ascii_alnum c || ceq c c_plus || ceq c c_dot || ceq c c_dash = false.
Proof. intros c G. destruct (gap_cases c G) as [->|[->|[->|[->| ->]]]]; reflexivity. Qed.
Lemma autolink_gap : forall c r, gap c = true -> autolink_at (c :: r) = None.
Proof. intros c r G. unfold autolink_at. cbn [take_while]. rewrite (gap_word c G). reflexivity. Qed.

(** A character that is none of the special ones is a piece of text. *)
Lemma sc_plain : forall b c r cur fs, is_mark c = false -> ceq c c_bt = false ->
  (c = c_lt -> autolink_at r = None /\ raw r = None) -> c <> c_lbr -> (c = c_bang -> hd_error r <> Some c_lbr) -> c <> c_rbr ->
  sc b (c :: r) cur fs
  = sc (last_of (spelling (first_piece ENT c r)) b) (skipn (List.length (spelling (first_piece ENT c r))) (c :: r))
      (TText (first_piece ENT c r) :: cur) fs.
Proof.
  intros b c r cur fs M T L B I R. unfold sc at 1. cbn [List.length SpecEmph.scan]. rewrite M, T.
  assert (F : forall p s', c :: r = spelling p ++ s' -> 0 < List.length (spelling p) ->
    scan (List.length r) (last_of (spelling p) b) (skipn (List.length (spelling p)) (c :: r)) (TText p :: cur) fs
    = sc (last_of (spelling p) b) (skipn (List.length (spelling p)) (c :: r)) (TText p :: cur) fs).
  { intros p s' E Q. unfold sc. apply scan_enough; [|lia]. rewrite skipn_length. cbn [List.length]. lia. }
  destruct (first_piece_prefix ENT c r) as (s' & E & Q).
  destruct (ceq_spec c c_lt) as [->|_].
  { destruct (L eq_refl) as [-> ->]. apply (F (Plain c_lt) r eq_refl). cbn. lia. }
  destruct (ceq_spec c c_lbr) as [->|_]; [contradiction B; reflexivity|].
  replace (ceq c c_bang && starts_with [c_lbr] r) with false.
  2:{ destruct (ceq_spec c c_bang) as [->|_]; [|reflexivity]. destruct r as [|d r]; [reflexivity|].
      unfold starts_with. cbn [strip_prefix].
      destruct (ceq_spec c_lbr d) as [<-|_]; [contradiction (I eq_refl); reflexivity|reflexivity]. }
  destruct (ceq_spec c c_rbr) as [->|_]; [contradiction R; reflexivity|]. apply (F _ s' E Q).
Qed.
Lemma last_plain : forall c b, last_of [c] b = Some c. Proof. reflexivity. Qed.

Lemma sc_text : forall ps b rest cur fs, plain_text ENT ps -> bracket_free ps ->
  (forall c, hd_error rest = Some c -> continues_reference c = false) ->
  (last_of (flat_map spelling ps) None = Some c_bang -> hd_error rest <> Some c_lbr) ->
  sc b (flat_map spelling ps ++ rest) cur fs
  = sc (last_of (flat_map spelling ps) b) rest (rev (map TText ps) ++ cur) fs.
Proof.
  induction ps as [|p ps IH]; intros b rest cur fs (P & N) (NL & NR & LF) H HB; [reflexivity|].
  cbn [flat_map] in *. set (S0 := flat_map spelling ps) in *.
  destruct (spelling p ++ S0) as [|c r] eqn:E.
  { discriminate P. }
  destruct (first_piece_prefix ENT c r) as (s' & F & _).
  rewrite (pieces_cons ENT c r s' F) in P. injection P as P1 P2.
  assert (s' = S0).
  { rewrite P1 in F. rewrite <- E in F. apply app_inv_head in F. auto. }
  subst s'.
  assert (NB : first_piece ENT c r <> Plain c_bs).
  { rewrite P1. intro K. apply (N c_bs eq_refl). left. exact K. }
  assert (Pc : c <> c_bs -> c <> c_amp -> p = Plain c).
  { intros A B. rewrite <- P1. unfold first_piece. destruct (ceq_spec c c_bs); [contradiction|].
    destruct (ceq_spec c c_amp); [contradiction|reflexivity]. }
  assert (Nc : special c = true -> c = c_bs).
  { intro K. destruct (ceq_spec c c_bs) as [|D]; [assumption|]. exfalso. apply (N c K). left. apply Pc; [exact D|].
    intros ->. discriminate K. }
  assert (M : is_mark c = false).
  { destruct (is_mark c) eqn:M; [|reflexivity]. rewrite (Nc (special_of_mark c M)) in M. discriminate M. }
  assert (Tk : ceq c c_bt = false).
  { destruct (ceq_spec c c_bt) as [->|]; [|reflexivity]. discriminate (Nc eq_refl). }
  assert (PT : plain_text ENT ps).
  { split; [exact P2|]. intros d S1 I; apply (N d S1); right; exact I. }
  assert (BF : bracket_free ps).
  { split; [intro I; apply NL; right; exact I|]. split; [intro I; apply NR; right; exact I|].
    destruct p; cbn [less_free] in LF; [exact (proj2 LF)|exact LF|exact LF]. }
  change ((c :: r) ++ rest) with (c :: r ++ rest). rewrite sc_plain; [|exact M|exact Tk| | | |].
  - rewrite (first_piece_app c r rest H NB), P1. cbn [map rev]. rewrite <- app_assoc. cbn [app].
    change (c :: r ++ rest) with ((c :: r) ++ rest). rewrite <- E, <- app_assoc, skipn_app_len, last_of_app.
    apply IH; [exact PT|exact BF|exact H|]. intros K. apply HB. rewrite <- E, last_of_app.
    fold S0 in K. unfold last_of in *. destruct (rev S0); [discriminate K|exact K].
  - intros ->. rewrite (Pc ltac:(discriminate) ltac:(discriminate)) in *. cbn [less_free] in LF.
    cbn [spelling app] in E. injection E as E. destruct LF as [LF _]. specialize (LF eq_refl).
    destruct ps as [|[d|d|q m] ps]; try contradiction. cbn [flat_map spelling app] in S0.
    subst S0. rewrite <- E. cbn [app]. split; [apply autolink_gap|apply raw_gap]; exact LF.
  - intros ->. apply NL. left. apply Pc; discriminate.
  - intros -> K. rewrite (Pc ltac:(discriminate) ltac:(discriminate)) in *. cbn [spelling app] in E. injection E as E.
    destruct r as [|d r].
    + cbn [app] in K. apply HB; [|exact K]. reflexivity.
    + cbn [app hd_error] in K. injection K as ->.
      assert (exists ps', ps = Plain c_lbr :: ps') as (ps' & ->).
      { fold S0 in P2. rewrite E in P2. destruct (first_piece_prefix ENT c_lbr r) as (q & Fq & _).
        rewrite (pieces_cons ENT c_lbr r q Fq) in P2. exists (pieces ENT q). exact (eq_sym P2). }
      apply NL. right. left. reflexivity.
  - intros ->. apply NR. left. apply Pc; discriminate.
Qed.
Lemma sc_break : forall b c rest cur fs, gap c = true -> sc b (c :: rest) cur fs = sc (Some c) rest (TText (Plain c) :: cur) fs.
Proof.
  intros b c rest cur fs G.
  destruct (gap_cases c G) as [->|[->|[->|[->| ->]]]]; (rewrite sc_plain; [reflexivity|reflexivity|reflexivity|discriminate..]).
Qed.

Lemma sc_angle : forall b s i rest cur fs,
  angle_reads raw s i ->
  sc b ([c_lt] ++ s ++ [c_gt] ++ rest) cur fs = sc (Some c_gt) rest (TInl i :: cur) fs.
Proof.
  intros b s i rest cur fs H. cbn [app]. unfold sc at 1. cbn [List.length SpecEmph.scan].
  change (is_mark c_lt) with false. change (ceq c_lt c_bt) with false. cbv iota. rewrite ceq_refl.
  destruct H as [(-> & A)|R].
  - specialize (A rest). cbn [app] in A. rewrite A. unfold sc. apply scan_enough; [|lia]. rewrite app_length. cbn [List.length]. lia.
  - destruct (R rest) as [A B]. cbn [app] in A, B. rewrite A, B.
    replace (skipn (S (List.length s)) (s ++ c_gt :: rest)) with rest.
    + unfold sc. apply scan_enough; [|lia]. rewrite app_length. cbn [List.length]. lia.
    + change (s ++ c_gt :: rest) with (s ++ [c_gt] ++ rest). rewrite app_assoc.
      replace (S (List.length s)) with (List.length (s ++ [c_gt])) by (rewrite app_length; cbn; lia).
      symmetry. apply skipn_app_len.
Qed.
Lemma sc_open : forall image b r cur fs,
  sc b (opening_bracket image ++ r) cur fs = sc (Some c_lbr) r [] (Frame image true r cur :: fs).
Proof.
  intros [|] b r cur fs; [|reflexivity].
  transitivity (scan (S (List.length r)) (Some c_lbr) r [] (Frame true true r cur :: fs)); [reflexivity|].
  unfold sc. apply scan_enough; lia.
Qed.
Lemma inside_of : forall s t : str, firstn (List.length (s ++ t) - List.length t) (s ++ t) = s.
Proof.
  intros s t. replace (List.length (s ++ t) - List.length t) with (List.length s) by (rewrite app_length; lia).
  rewrite firstn_app, Nat.sub_diag, firstn_all. cbn [firstn]. apply app_nil_r.
Qed.
Lemma sc_link : forall image inside h url title rest b cur before fs,
  how_reads ENT defs inside h url title (hd_error rest) ->
  sc b (c_rbr :: spell_how h ++ rest) cur (Frame image true (inside ++ c_rbr :: spell_how h ++ rest) before :: fs)
  = sc (last_of (spell_how h) (Some c_rbr)) rest (TInl (Lnk image (emphasis (rev cur)) url title) :: before) (rest_of fs image).
Proof.
  intros image inside h url title rest b cur before fs H. unfold sc at 1. cbn [List.length SpecEmph.scan].
  change (is_mark c_rbr) with false. change (ceq c_rbr c_bt) with false. change (ceq c_rbr c_lt) with false.
  change (ceq c_rbr c_lbr) with false. change (ceq c_rbr c_bang && _) with false. cbv iota. rewrite ceq_refl. cbn [f_active f_from f_image f_before].
  change (S (List.length (spell_how h ++ rest))) with (List.length (c_rbr :: spell_how h ++ rest)).
  rewrite (inside_of inside (c_rbr :: spell_how h ++ rest)), (how_tail inside h url title rest H), inside_of.
  unfold sc. apply scan_enough; [|lia]. rewrite app_length. lia.
Qed.
Definition in_name (c : char) : Prop := existsb (ceq c) [c_bt; c_bs; c_amp; c_lt; c_lbr; c_rbr; c_bang] = false.
Lemma in_name_not : forall c d, in_name c -> In d [c_bt; c_bs; c_amp; c_lt; c_lbr; c_rbr; c_bang] -> c <> d.
Proof.
  intros c d H I ->. unfold in_name in H. assert (K : existsb (ceq d) [c_bt; c_bs; c_amp; c_lt; c_lbr; c_rbr; c_bang] = true).
  { apply existsb_exists. exists d. split; [exact I|apply ceq_refl]. }
  rewrite K in H. discriminate H.
Qed.
Lemma sc_name : forall n s b rest cur fs, List.length s <= n -> Forall in_name s ->
  exists b' cur', sc b (s ++ c_rbr :: rest) cur fs = sc b' (c_rbr :: rest) cur' fs.
Proof.
  induction n as [|n IH]; intros s b rest cur fs L F.
  - destruct s; [|cbn in L; lia]. exists b, cur. reflexivity.
  - destruct s as [|c s]; [exists b, cur; reflexivity|]. cbn [List.length] in L. inversion F as [|? ? Fc Fs]; subst.
    destruct (is_mark c) eqn:M.
    + assert (Q : exists k s', c :: s = repeat c (S k) ++ s' /\ hd_error s' <> Some c).
      { clear - s. induction s as [|d s IHs].
        - exists 0, []. split; [reflexivity|discriminate].
        - destruct (ceq_spec d c) as [->|N].
          + destruct IHs as (k & s' & E & H). exists (S k), s'. split; [|exact H].
            change (repeat c (S (S k)) ++ s') with (c :: (repeat c (S k) ++ s')). rewrite <- E. reflexivity.
          + exists 0, (d :: s). split; [reflexivity|]. intro K. injection K as ->. contradiction N; reflexivity. }
      destruct Q as (k & s' & E & H). rewrite E, <- app_assoc.
      assert (Fs' : Forall in_name s').
      { rewrite E in F. apply Forall_app in F. exact (proj2 F). }
      rewrite sc_run; [|lia|exact M|].
      * apply (IH s'); [|exact Fs']. apply (f_equal (@List.length char)) in E. rewrite app_length, repeat_length in E. cbn [List.length] in E. lia.
      * destruct s' as [|d s']; [|exact H]. cbn. intro K. injection K as <-. discriminate M.
    + change ((c :: s) ++ c_rbr :: rest) with (c :: s ++ c_rbr :: rest).
      assert (Pc : first_piece ENT c (s ++ c_rbr :: rest) = Plain c).
      { unfold first_piece. destruct (ceq_spec c c_bs) as [->|_]; [discriminate Fc|].
        destruct (ceq_spec c c_amp) as [->|_]; [discriminate Fc|reflexivity]. }
      rewrite sc_plain; [rewrite Pc; cbn [spelling List.length skipn]; apply (IH s); [lia|exact Fs]|exact M| | | | |].
      * destruct (ceq_spec c c_bt) as [->|]; [discriminate Fc|reflexivity].
      * intros ->. discriminate Fc.
      * intros ->. discriminate Fc.
      * intros ->. discriminate Fc.
      * intros ->. discriminate Fc.
Qed.
Lemma sc_note : forall b name rest cur fs, note_reads defs notes name (hd_error rest) ->
  sc b ([c_lbr; c_caret] ++ name ++ c_rbr :: rest) cur fs = sc (Some c_rbr) rest (TInl (Fn name) :: cur) fs.
Proof.
  intros b name rest cur fs (NT & NP & NB & ND & F).
  change ([c_lbr; c_caret] ++ name ++ c_rbr :: rest) with (opening_bracket false ++ (c_caret :: name) ++ c_rbr :: rest).
  rewrite sc_open.
  destruct (sc_name _ (c_caret :: name) (Some c_lbr) rest [] (Frame false true ((c_caret :: name) ++ c_rbr :: rest) cur :: fs) (le_n _))
    as (b' & cur' & ->).
  { apply Forall_cons; [reflexivity|exact F]. }
  unfold sc at 1. cbn [List.length SpecEmph.scan].
  change (is_mark c_rbr) with false. change (ceq c_rbr c_bt) with false. change (ceq c_rbr c_lt) with false.
  change (ceq c_rbr c_lbr) with false. change (ceq c_rbr c_bang && _) with false. cbv iota. rewrite ceq_refl. cbn [f_active f_from f_image f_before].
  change (S (List.length rest)) with (List.length (c_rbr :: rest)). rewrite (inside_of (c_caret :: name) (c_rbr :: rest)).
  replace (link_tail ENT defs (c_caret :: name) rest) with (@None (str * str * str)).
  - cbn [negb andb strip_prefix]. rewrite ceq_refl, NT. reflexivity.
  - unfold link_tail. destruct rest as [|c r]; cbn [inline_tail]; [rewrite ND; reflexivity|].
    cbn [hd_error] in NP, NB. destruct (ceq_spec c c_lpar) as [->|_]; [contradiction NP; reflexivity|].
    destruct (ceq_spec c c_lbr) as [->|_]; [contradiction NB; reflexivity|]. rewrite ND. reflexivity.
Qed.

(** ** Layouts *)
Section Ind.
Variable P : lay -> Prop.
Hypothesis Ht : forall ps, P (LText ps).
Hypothesis Hb : forall c, P (LBreak c).
Hypothesis Hc : forall s x, P (LCode s x).
Hypothesis Hm : forall b c body, Forall P body -> P (LMark b c body).
Hypothesis Hl : forall i body h u t, Forall P body -> P (LLink i body h u t).
Hypothesis Ha : forall s i, P (LAngle s i).
Hypothesis Hn : forall s, P (LNote s).
Fixpoint lay_ind' (l : lay) : P l :=
  match l with
  | LText ps => Ht ps
  | LBreak c => Hb c
  | LCode s x => Hc s x
  | LMark b c body =>
      Hm b c body ((fix all (ls : list lay) : Forall P ls :=
        match ls with [] => Forall_nil P | x :: r => Forall_cons x (lay_ind' x) (all r) end) body)
  | LLink i body h u t =>
      Hl i body h u t ((fix all (ls : list lay) : Forall P ls :=
        match ls with [] => Forall_nil P | x :: r => Forall_cons x (lay_ind' x) (all r) end) body)
  | LAngle s i => Ha s i
  | LNote s => Hn s
  end.
End Ind.

Lemma placed_body : forall around c body b,
  (fix all (before : option char) (ls : list lay) : Prop :=
     match ls with
     | [] => True
     | x :: r => placed1 ENT space punct defs notes raw around x before (next (flat_map spell1 r) (Some c)) /\ all (last_of (spell1 x) before) r
     end) b body <-> placed ENT space punct defs notes raw around b body (Some c).
Proof.
  intros around c body. induction body as [|x r IH]; intros b; [reflexivity|]. cbn [placed]. rewrite (IH _). reflexivity.
Qed.
Lemma sound_body : forall c body,
  (fix all (ls : list lay) : Prop :=
     match ls with
     | [] => True
     | x :: r => sound1 ENT x (next (flat_map spell1 r) (Some c)) /\ all r
     end) body <-> sound ENT body (Some c).
Proof.
  intros c body. induction body as [|x r IH]; [reflexivity|]. cbn [sound]. rewrite IH. reflexivity.
Qed.
Lemma linkless_body : forall body,
  (fix all (ls : list lay) : Prop := match ls with [] => True | x :: r => linkless1 x /\ all r end) body <-> linkless body.
Proof.
  unfold linkless. induction body as [|x r IH]; [split; auto|]. rewrite IH. split; [intros [A B]; auto|].
  intro H. inversion H; auto.
Qed.
Lemma linkless_mark : forall b c body, linkless1 (LMark b c body) <-> linkless body.
Proof. intros. apply linkless_body. Qed.
Lemma linkless_link : forall i body h u t, linkless1 (LLink i body h u t) <-> i = true /\ linkless body.
Proof. intros. cbn [linkless1]. rewrite linkless_body. reflexivity. Qed.

(** The frames that a layout leaves as they are. *)
Definition left_alone (l : lay) (fs : list frame) : Prop := linkless1 l \/ Forall (fun f => f_image f = true) fs.
Lemma rest_of_images : forall fs image, image = true \/ Forall (fun f => f_image f = true) fs -> rest_of fs image = fs.
Proof.
  intros fs [|] [E|F]; try reflexivity; [discriminate E|]. unfold rest_of.
  induction F as [|f fs Hf _ IH]; [reflexivity|]. cbn [map]. rewrite Hf, IH. reflexivity.
Qed.

(** What a layout is scanned to, and what that does to the stack. *)
Definition reads (l : lay) : Prop := forall b rest around,
  sound1 ENT l (hd_error rest) -> placed1 ENT space punct defs notes raw around l b (hd_error rest) ->
  exists ts,
    (forall cur fs, left_alone l fs -> sc b (spell1 l ++ rest) cur fs = sc (last_of (spell1 l) b) rest (rev ts ++ cur) fs)
    /\ forall st, frames st around -> go ts st = dones (contents1 l) ++ st.
Lemma reads_all : forall ls, Forall reads ls -> forall b rest around,
  sound ENT ls (hd_error rest) -> placed ENT space punct defs notes raw around b ls (hd_error rest) ->
  exists ts,
    (forall cur fs, Forall (fun l => left_alone l fs) ls ->
       sc b (spell ls ++ rest) cur fs = sc (last_of (spell ls) b) rest (rev ts ++ cur) fs)
    /\ forall st, frames st around -> go ts st = dones (contents ls) ++ st.
Proof.
  intros ls F. induction F as [|x ls Hx _ IH]; intros b rest around Q C.
  { exists []. split; reflexivity. }
  destruct C as [C1 C2]. destruct Q as [Q1 Q2]. unfold spell, contents in *.
  destruct (Hx b (flat_map spell1 ls ++ rest) around) as (t1 & S1 & G1); [rewrite <- next_app; assumption..|].
  destruct (IH _ rest around Q2 C2) as (t2 & S2 & G2). exists (t1 ++ t2). split.
  - intros cur fs L. inversion L as [|? ? L1 L2]; subst. cbn [flat_map]. rewrite <- app_assoc, last_of_app, (S1 cur fs L1), (S2 _ fs L2).
    rewrite rev_app_distr, <- app_assoc. reflexivity.
  - intros st FR. cbn [flat_map]. rewrite fold_left_app, (G1 st FR), (G2 _ (frames_dones _ _ _ FR)), dones_app, <- app_assoc. reflexivity.
Qed.
Lemma emphasis_dones : forall ts l, go ts [] = dones l ++ [] -> emphasis ts = l.
Proof.
  intros ts l E. unfold emphasis. rewrite E, app_nil_r. unfold dones. rewrite rev_involutive. clear E.
  induction l as [|x l IH]; [reflexivity|]. cbn [map flat_map literally app]. f_equal. exact IH.
Qed.
Lemma reads_lay : forall l, reads l.
Proof.
  induction l as [ps|c|s x|strong c body IH|image body h url title IH|s i|name] using lay_ind'; intros b rest around Q C.
  - destruct Q as (P & H). destruct C as (BF & B). exists (map TText ps). split; [|intros; apply go_text].
    intros cur fs _. exact (sc_text ps b rest cur fs P BF H B).
  - exists [TText (Plain c)]. split; [|reflexivity]. intros cur fs _. exact (sc_break b c rest cur fs Q).
  - destruct Q as [CS H]. exists [TCode x]. split; [|reflexivity]. intros cur fs _. cbn [spell1].
    rewrite (sc_code b s x rest cur fs CS H). destruct CS as [[q ->] _]. unfold last_of. cbn [rev]. rewrite rev_app_distr. reflexivity.
  - cbn [placed1] in C. destruct C as ((O1 & O2 & NI & C1 & NA) & B). apply placed_body in B.
    destruct Q as [M Q]. apply sound_body in Q.
    cbn [spell1 contents1]. fold (spell body) in *. fold (contents body).
    assert (W : 0 < width strong) by (destruct strong; cbn; lia).
    assert (H2 : hd_error (repeat c (width strong) ++ rest) = Some c) by (destruct strong; reflexivity).
    destruct (reads_all body IH (Some c) (repeat c (width strong) ++ rest) ((strong, c) :: around)) as (ts & S1 & G1);
      [rewrite H2; assumption..|].
    set (o1 := can_open space punct c b (next (spell body) (Some c))) in *.
    set (o2 := can_close space punct c b (next (spell body) (Some c))) in *.
    set (k1 := can_open space punct c (last_of (spell body) (Some c)) (hd_error rest)) in *.
    set (k2 := can_close space punct c (last_of (spell body) (Some c)) (hd_error rest)) in *.
    exists (TRun c (width strong) o1 o2 :: ts ++ [TRun c (width strong) k1 k2]). split.
    + intros cur fs L.
      rewrite !last_of_app, last_mark, <- !app_assoc, !mark_width.
      assert (H1 : hd_error (spell body ++ repeat c (width strong) ++ rest) = next (spell body) (Some c)).
      { destruct (spell body); [destruct strong; reflexivity|reflexivity]. }
      rewrite sc_run; [|exact W|exact M|rewrite H1; exact NI]. rewrite H1. fold o1 o2. rewrite S1.
      * rewrite sc_run; [|exact W|exact M|exact NA]. fold k1 k2.
        replace (last_of (repeat c (width strong)) (last_of (spell body) (Some c))) with (Some c) by (destruct strong; reflexivity).
        cbn [rev]. rewrite rev_app_distr. cbn [rev app]. rewrite <- app_assoc. reflexivity.
      * destruct L as [L|L].
        -- apply linkless_mark in L. apply Forall_forall. intros y I. left. exact (proj1 (Forall_forall _ _) L y I).
        -- apply Forall_forall. intros y I. right. exact L.
    + intros st FR. cbn [fold_left]. rewrite fold_left_app. cbn [fold_left].
      rewrite O1, (opening strong c o2 st around FR O2), G1 by (cbn; auto). rewrite C1. apply closing.
  - cbn [placed1] in C. destruct C as (HR & NL & C). apply placed_body in C. apply sound_body in Q.
    cbn [spell1 contents1]. fold (spell body) in *. fold (contents body).
    destruct (reads_all body IH (Some c_lbr) (c_rbr :: spell_how h ++ rest) []) as (ts & S1 & G1); [assumption..|].
    exists [TInl (Lnk image (contents body) url title)]. split; [|reflexivity].
    intros cur fs L. replace ((opening_bracket image ++ spell body ++ [c_rbr] ++ spell_how h) ++ rest)
      with (opening_bracket image ++ spell body ++ c_rbr :: spell_how h ++ rest) by (rewrite <- !app_assoc; reflexivity).
    rewrite sc_open, S1.
    + rewrite (sc_link image (spell body) h url title rest _ _ cur fs HR). rewrite app_nil_r, rev_involutive.
      rewrite (emphasis_dones ts (contents body) (G1 [] Logic.I)). rewrite (rest_of_images fs image).
      * rewrite !last_of_app. reflexivity.
      * destruct L as [L|L]; [|right; exact L]. apply linkless_link in L. left. exact (proj1 L).
    + destruct image.
      * destruct L as [L|L].
        -- apply linkless_link in L. apply Forall_forall. intros y I. left. exact (proj1 (Forall_forall _ _) (proj2 L) y I).
        -- apply Forall_forall. intros y I. right. apply Forall_cons; [reflexivity|exact L].
      * apply Forall_forall. intros y I. left. exact (proj1 (Forall_forall _ _) (NL eq_refl) y I).
  - exists [TInl i]. split; [|reflexivity]. intros cur fs _. cbn [spell1].
    replace (([c_lt] ++ s ++ [c_gt]) ++ rest) with ([c_lt] ++ s ++ [c_gt] ++ rest) by (rewrite <- !app_assoc; reflexivity).
    rewrite (sc_angle b s i rest cur fs C). rewrite !last_of_app. reflexivity.
  - exists [TInl (Fn name)]. split; [|reflexivity]. intros cur fs _. cbn [spell1].
    replace (([c_lbr; c_caret] ++ name ++ [c_rbr]) ++ rest) with ([c_lbr; c_caret] ++ name ++ c_rbr :: rest) by (rewrite <- !app_assoc; reflexivity).
    rewrite (sc_note b name rest cur fs C). rewrite !last_of_app. reflexivity.
Qed.

Theorem placed_reads : forall ls, sound ENT ls None -> placed ENT space punct defs notes raw [] None ls None ->
  read_inlines ENT space punct defs notes raw (spell ls) = contents ls.
Proof.
  intros ls Q C. unfold read_inlines.
  destruct (reads_all ls (proj2 (Forall_forall _ _) (fun l _ => reads_lay l)) None [] [] Q C) as (ts & S1 & G1).
  specialize (S1 [] []). rewrite app_nil_r in S1. unfold sc in S1. rewrite S1.
  - cbn [List.length SpecEmph.scan fold_left]. rewrite app_nil_r, rev_involutive. apply emphasis_dones, (G1 [] Logic.I).
  - apply Forall_forall. intros l _. right. apply Forall_nil.
Qed.
End Laws.
