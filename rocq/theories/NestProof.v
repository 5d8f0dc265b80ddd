(** Blocks one after the other and blocks inside block quotes and list items,
    as the reader of [SpecBlocks] sees them. *)
From Coq Require Import Bool Arith NArith Lia ZifyBool ZifyNat ZifyN String List.
From Verif Require Import Base BaseFacts WrapModel SpecWrap WrapProof SpecCode SpecHeading SpecRefs SpecBlocks CodeProof BlocksProof ParaProof.
Import ListNotations.

(** ** Text and lines *)
Definition text_of (ls : list str) : str := flat_map (fun l => l ++ [c_nl]) ls.
Lemma text_of_app : forall a b, text_of (a ++ b) = text_of a ++ text_of b.
Proof. intros a b. unfold text_of. apply flat_map_app. Qed.
Lemma text_of_join : forall ls, ls <> [] -> join [c_nl] ls ++ [c_nl] = text_of ls.
Proof.
  induction ls as [|l ls IH]; intro N; [congruence|]. destruct ls as [|l2 ls]; [cbn; rewrite app_nil_r; reflexivity|].
  rewrite join_cons, <- !app_assoc, IH by discriminate. unfold text_of. cbn [flat_map]. rewrite <- !app_assoc. reflexivity.
Qed.
Lemma cm_lines_text : forall ls rest, Forall (Forall line_char) ls -> cm_lines (text_of ls ++ rest) = ls ++ cm_lines rest.
Proof. intros ls rest F. pose proof (cm_lines_flat (fun l : str => l) ls rest F) as H. rewrite map_id in H. exact H. Qed.
Lemma cm_lines_text_of : forall ls, Forall (Forall line_char) ls -> cm_lines (text_of ls) = ls.
Proof. intros ls F. pose proof (cm_lines_text ls [] F) as H. rewrite !app_nil_r in H. exact H. Qed.
Definition quo (l : str) : str := if is_nil l then lit ">" else lit "> " ++ l.
Definition ind (n : nat) (l : str) : str := if is_nil l then [] else spaces n ++ l.

(** ** Blank lines *)
Definition blank_next (rest : list str) : Prop := match rest with [] => True | l :: _ => is_blank l = true end.
(** The first line that is not blank is hardly indented. *)
Definition shallow (l : str) : Prop := is_blank l = false /\ run_len c_sp l <= 3 /\ tabbed l = false.
Fixpoint calm (rest : list str) : Prop :=
  match rest with
  | [] => True
  | l :: r => if is_blank l then calm r else shallow l
  end.
Lemma calm_skip : forall rest, calm rest -> exists k more, rest = k ++ more /\ Forall (fun l => is_blank l = true) k
  /\ (more = [] \/ exists l r, more = l :: r /\ shallow l).
Proof.
  induction rest as [|l r IH]; intro C; [exists [], []; auto|]. cbn [calm] in C. destruct (is_blank l) eqn:B.
  - destruct (IH C) as (k & more & -> & F & M). exists (l :: k), more. repeat split; auto.
  - exists [], (l :: r). split; [reflexivity|]. split; [constructor|]. right. exists l, r. auto.
Qed.
Lemma reads_blanks : forall k rest bs, Forall (fun l => is_blank l = true) k -> (reads (k ++ rest) bs <-> reads rest bs).
Proof.
  intros k rest bs F. induction F as [|l k B F IH]; [reflexivity|]. cbn [app]. rewrite <- IH. split; [apply reads_blank_inv|apply reads_blank]; exact B.
Qed.
Lemma next_item_blanks : forall k rest, Forall (fun l => is_blank l = true) k -> next_item (k ++ rest) = next_item rest.
Proof. intros k rest F. induction F as [|l k B F IH]; [reflexivity|]. cbn [app next_item]. rewrite B. exact IH. Qed.

(** ** A block and what may follow it *)
Definition follows (b : block) (rest : list str) (bs : list block) : Prop :=
  match b with
  | Para _ => stops rest
  | Quote _ | Alert _ _ | Table _ _ => blank_next rest
  | Html ls => comment_block ls = true \/ blank_next rest
  | Foot _ _ => match rest with [] => True | l :: _ => is_blank l = true /\ calm rest \/ shallow l /\ begins_note l = true end
  | SpecBlocks.List m _ => blank_next rest /\ calm rest /\ (forall m', next_item rest = Some m' -> same_kind m m' = false)
  | Describe _ => blank_next rest /\ calm rest /\ entries_ahead bs = false
  | _ => True
  end.
(** The first line of a block. *)
Definition heads (l : str) (b : block) : Prop :=
  shallow l /\ match b with SpecBlocks.List m _ => exists w c, item_line l = Some (m, w, c) | _ => item_line l = None end.
Definition block_lines (ls : list str) (b : block) : Prop :=
  (exists l r, ls = l :: r /\ heads l b)
  /\ forall rest bs, follows b rest bs -> reads rest bs -> reads (ls ++ rest) (b :: bs).
Lemma blank_stops : forall rest, blank_next rest -> stops rest.
Proof. intros [|l r] H; [exact Logic.I|left; exact H]. Qed.

Lemma item_line_none : forall l s, margin l = Some s -> marker_of s = None -> item_line l = None.
Proof. intros l s M K. unfold item_line. rewrite M, K. destruct (is_rule s); reflexivity. Qed.
Lemma para_block : forall x ls, para_lines x ls -> block_lines ls (Para (map words (segments x))).
Proof.
  intros x ls P. split.
  - destruct ls as [|l r]; [destruct (pl_nonempty _ _ P eq_refl)|]. exists l, r. split; [reflexivity|].
    pose proof (Forall_inv (pl_plain _ _ P)) as (D & _). destruct (dark_margin l D) as (M & B & R & T).
    split; [split; [exact B|split; [lia|exact T]]|]. apply (item_line_none l l M). exact (pl_marker _ _ P).
  - intros rest bs F R. apply para_lines_read; assumption.
Qed.

(** ** Block quotes *)
Lemma quo_eq : forall l, exists r, quo l = c_gt :: r.
Proof. intros [|c l]; [exists []|exists (c_sp :: c :: l)]; reflexivity. Qed.
Lemma strip_quo : forall l, strip_quote (quo l) = Some l.
Proof. intros [|c l]; reflexivity. Qed.
Lemma blank_run : forall l, is_blank l = true -> skipn (run_len c_sp l) l = [] \/ exists r, skipn (run_len c_sp l) l = c_tab :: r.
Proof.
  induction l as [|c l IH]; intro B; [left; reflexivity|]. unfold is_blank in *. cbn [forallb] in B. apply andb_true_iff in B. destruct B as [B1 B2].
  cbn [run_len]. destruct (ceq_spec c c_sp) as [->|N]; [cbn [skipn]; apply IH; exact B2|]. right. cbn [skipn].
  unfold is_blank_char in B1. apply orb_true_iff in B1. rewrite !ceq_true in B1. destruct B1 as [->| ->]; [congruence|]. eauto.
Qed.
Lemma strip_quote_blank : forall l, is_blank l = true -> strip_quote l = None.
Proof.
  intros l B. unfold strip_quote, fence_indent. destruct (run_len c_sp l <=? 3); [|reflexivity].
  destruct (blank_run l B) as [->|(r & ->)]; reflexivity.
Qed.
Lemma quote_span_quo : forall ls rest, Forall (fun l => tabbed l = false) ls -> blank_next rest ->
  quote_span (map quo ls ++ rest) = Some (ls, rest).
Proof.
  intros ls rest F B. induction F as [|l ls T F IH]; cbn [map app].
  - destruct rest as [|l r]; [reflexivity|]. cbn [quote_span blank_next] in *. rewrite strip_quote_blank, B by exact B. reflexivity.
  - cbn [quote_span]. rewrite strip_quo, T, IH. reflexivity.
Qed.
Lemma gt_line : forall r, is_blank (c_gt :: r) = false /\ margin (c_gt :: r) = Some (c_gt :: r) /\ opening_fence (c_gt :: r) = None
  /\ is_rule (c_gt :: r) = false /\ read_atx (c_gt :: r) = None /\ starts_quote (c_gt :: r) = true
  /\ item_line (c_gt :: r) = None /\ shallow (c_gt :: r).
Proof.
  intro r. assert (M : margin (c_gt :: r) = Some (c_gt :: r)) by reflexivity.
  repeat split; try reflexivity; try exact M. unfold shallow. cbn. lia.
Qed.
Lemma reads_quote_line : forall r more, forall bs, (exists n, read_quote (read n) ((c_gt :: r) :: more) = Some bs) -> reads ((c_gt :: r) :: more) bs.
Proof.
  intros r more bs [n E]. apply reads_step. exists n. cbn [read_step]. destruct (gt_line r) as (-> & -> & -> & -> & -> & -> & _). exact E.
Qed.
Lemma quote_block : forall ls bs, ls <> [] -> Forall (fun l => tabbed l = false) ls -> quote_sort_of (hd [] ls) = Plain_quote ->
  reads ls bs -> block_lines (map quo ls) (Quote bs).
Proof.
  intros ls bs N F Q [n1 R]. split.
  - destruct ls as [|l ls]; [congruence|]. destruct (quo_eq l) as [r E]. exists (quo l), (map quo ls). split; [reflexivity|].
    rewrite E. destruct (gt_line r) as (_ & _ & _ & _ & _ & _ & I & S). split; [exact S|exact I].
  - intros rest bs' B [n2 R']. destruct ls as [|l ls]; [congruence|].
    assert (G : exists n, read_quote (read n) (map quo (l :: ls) ++ rest) = Some (Quote bs :: bs')).
    { exists (n1 + n2). unfold read_quote. rewrite quote_span_quo by assumption. rewrite Q.
      rewrite (read_mono n1 (n1 + n2) ltac:(lia) _ _ R), (read_mono n2 (n1 + n2) ltac:(lia) _ _ R'). reflexivity. }
    cbn [map app] in *. destruct (quo_eq l) as [r E]. rewrite E in *. apply reads_quote_line, G.
Qed.
Lemma alert_block : forall a ls bs, In a alert_names -> Forall (fun l => tabbed l = false) ls -> reads ls bs ->
  block_lines (map quo ((lit "[!" ++ a ++ lit "]") :: ls)) (Alert a bs).
Proof.
  intros a ls bs A F [n1 R]. set (h := lit "[!" ++ a ++ lit "]").
  assert (T : tabbed h = false) by reflexivity.
  assert (Q : quote_sort_of h = Alert_of a).
  { unfold h. clear - A. cbn [alert_names In] in A. destruct A as [<-|[<-|[<-|[<-|[<-|[]]]]]]; vm_compute; reflexivity. }
  split.
  - destruct (quo_eq h) as [r E]. exists (quo h), (map quo ls). split; [reflexivity|].
    rewrite E. destruct (gt_line r) as (_ & _ & _ & _ & _ & _ & I & S). split; [exact S|exact I].
  - intros rest bs' B [n2 R'].
    assert (G : exists n, read_quote (read n) (map quo (h :: ls) ++ rest) = Some (Alert a bs :: bs')).
    { exists (n1 + n2). unfold read_quote. rewrite quote_span_quo; [|constructor; assumption|exact B]. cbn [hd tl]. rewrite Q.
      rewrite (read_mono n1 (n1 + n2) ltac:(lia) _ _ R), (read_mono n2 (n1 + n2) ltac:(lia) _ _ R'). reflexivity. }
    cbn [map app] in *. destruct (quo_eq h) as [r E]. rewrite E in *. apply reads_quote_line, G.
Qed.

(** ** List items *)
Lemma ind_strip : forall w l, 1 <= w -> strip_item w (ind w l) = Some l.
Proof. intros w [|c l] H; [apply strip_item_empty|]. apply strip_item_prefixed. Qed.
Lemma tabbed_spaces : forall n l, tabbed (spaces n ++ l) = tabbed l.
Proof.
  intros n l. unfold tabbed, spaces. rewrite run_len_repc.
  assert (E : forall k, skipn (n + k) (repc c_sp n ++ l) = skipn k l) by (intro k; induction n as [|n IH]; [reflexivity|exact IH]).
  rewrite E. reflexivity.
Qed.
Lemma tabbed_ind : forall n l, tabbed l = false -> tabbed (ind n l) = false.
Proof. intros n [|c l] H; [reflexivity|]. unfold ind. cbn [is_nil]. rewrite tabbed_spaces. exact H. Qed.
Lemma strip_blank : forall w l, is_blank l = true -> exists x, strip_item w l = Some x /\ is_blank x = true.
Proof.
  intros w l B. unfold strip_item. destruct (w <=? run_len c_sp l).
  - exists (skipn w l). split; [reflexivity|]. unfold is_blank in *. apply forallb_Forall in B. apply forallb_Forall.
    rewrite <- (firstn_skipn w l) in B. apply Forall_app in B. tauto.
  - rewrite B. eexists. split; reflexivity.
Qed.
Lemma shallow_strip : forall w l, 4 <= w -> shallow l -> strip_item w l = None.
Proof. intros w l W (B & R & _). unfold strip_item. replace (w <=? run_len c_sp l) with false by lia. rewrite B. reflexivity. Qed.
(** What comes after an item. *)
Definition item_end (rest : list str) : Prop :=
  match rest with
  | [] => True
  | l :: _ => is_blank l = true /\ calm rest \/ shallow l /\ is_some (item_line l) = true
  end.
Lemma item_span_blanks : forall w k rest ab, 4 <= w -> Forall (fun l => is_blank l = true) k -> (rest = [] \/ exists l r, rest = l :: r /\ shallow l) -> (k <> [] \/ ab = true) ->
  exists k', item_span w ab (k ++ rest) = Some (k', rest) /\ Forall (fun l => is_blank l = true) k'.
Proof.
  intros w k rest ab W F R A. revert ab A. induction F as [|l k B F IH]; intros ab A; cbn [app].
  - destruct A as [A|A]; [congruence|]. subst ab. exists []. split; [|constructor].
    destruct R as [->|(l & r & -> & S)]; [reflexivity|]. cbn [item_span]. pose proof S as (_ & _ & T). unfold misaligned. rewrite T. cbn [andb].
    rewrite (shallow_strip w l W S). reflexivity.
  - cbn [item_span]. rewrite B, andb_false_r. destruct (strip_blank w l B) as (x & -> & Bx).
    destruct (IH true ltac:(auto)) as (k' & -> & F'). exists (x :: k'). split; [reflexivity|]. constructor; assumption.
Qed.
Definition aligned (w : nat) (ls : list str) : Prop := w mod 4 = 0 \/ Forall (fun l => tabbed l = false) ls.
Lemma aligned_ind : forall w l, w mod 4 = 0 \/ tabbed l = false -> misaligned w (ind w l) = false.
Proof.
  intros w l [H|H]; unfold misaligned; [|rewrite tabbed_ind by exact H; reflexivity]. rewrite H. cbn [Nat.eqb andb].
  destruct l as [|c l]; [reflexivity|]. unfold ind. cbn [is_nil]. replace (w <=? run_len c_sp (spaces w ++ c :: l)) with true; [apply andb_false_r|].
  unfold spaces. rewrite run_len_repc. lia.
Qed.
Lemma aligned_cons : forall w l ls, aligned w (l :: ls) -> (w mod 4 = 0 \/ tabbed l = false) /\ aligned w ls.
Proof. intros w l ls [H|H]; [split; left; exact H|]. inversion H; subst. split; right; assumption. Qed.
Lemma item_span_ind : forall w ls rest ab, 1 <= w -> 4 <= w \/ rest = [] -> aligned w ls -> item_end rest ->
  exists k more blanks, rest = blanks ++ more /\ Forall (fun l => is_blank l = true) blanks /\ Forall (fun l => is_blank l = true) k
    /\ item_span w ab (map (ind w) ls ++ rest) = Some (ls ++ k, more).
Proof.
  intros w ls rest ab W1 W F E. revert ab. induction ls as [|l ls IH]; intro ab; cbn [map app].
  - destruct rest as [|l r]; [exists [], [], []; auto|]. destruct W as [W|W]; [|discriminate]. cbn [item_end] in E. destruct E as [[B C]|[S I]].
    + destruct (calm_skip (l :: r) C) as (k & more & E & Fk & M). rewrite E.
      destruct k as [|x k].
      { cbn [app] in E. destruct M as [->|(l' & r' & -> & S & _)]; [discriminate|]. injection E as <- <-. congruence. }
      destruct (item_span_blanks w (x :: k) more ab W Fk M ltac:(left; discriminate)) as (k' & -> & Fk').
      exists k', more, (x :: k). auto.
    + exists [], (l :: r), []. split; [reflexivity|]. split; [constructor|]. split; [constructor|]. cbn [item_span].
      pose proof S as (_ & _ & T). unfold misaligned. rewrite T. cbn [andb]. rewrite (shallow_strip w l W S), I, orb_true_r. reflexivity.
  - cbn [item_span]. destruct (aligned_cons _ _ _ F) as [T F']. rewrite aligned_ind by exact T. cbn [andb]. rewrite ind_strip by lia.
    destruct (IH F' (is_blank (ind w l))) as (k & more & bl & E1 & E2 & E3 & ->). exists k, more, bl. auto.
Qed.
(** The head of an item: [h] is read as the marker [m] and the content begins
    in column [w]. *)
Definition item_head_line (h : str) (m : marker) (w : nat) (l : str) : Prop :=
  item_line (h ++ l) = Some (m, w, l) /\ shallow (h ++ l) /\ opening_fence (h ++ l) = None /\ is_blank l = false
  /\ exists s, margin (h ++ l) = Some s /\ is_rule s = false /\ read_atx s = None /\ starts_quote s = false /\ is_some (marker_of s) = true.
Lemma add_item_new : forall m it rest bs, (forall m', next_item rest = Some m' -> same_kind m m' = false) ->
  add_item m it rest bs = SpecBlocks.List m [it] :: bs.
Proof.
  intros m it rest bs H. unfold add_item. destruct (next_item rest) as [m'|]; [|reflexivity].
  destruct bs as [|[] bs]; try reflexivity. rewrite (H m' eq_refl). reflexivity.
Qed.
Lemma add_item_more : forall m m' it items rest bs, next_item rest = Some m' -> same_kind m m' = true ->
  add_item m it rest (SpecBlocks.List m' items :: bs) = SpecBlocks.List m (it :: items) :: bs.
Proof. intros m m' it items rest bs N K. unfold add_item. rewrite N, K. reflexivity. Qed.
(** One item in front of what follows. *)
Lemma reads_item : forall h m w l box l0 ls rest inner bs, 1 <= w -> 4 <= w \/ rest = [] -> item_head_line h m w l -> task_box l = Some (box, l0) ->
  aligned w ls -> item_end rest ->
  (forall k, Forall (fun l => is_blank l = true) k -> reads (l0 :: ls ++ k) inner) -> reads rest bs ->
  reads ((h ++ l) :: map (ind w) ls ++ rest) (add_item m (box, inner) rest bs).
Proof.
  intros h m w l box l0 ls rest inner bs W1 W (I & S & Op & Bl & s & M & Ru & At & Sq & Mk) TB F E RI R.
  destruct (item_span_ind w ls rest false W1 W F E) as (k & more & bl & E1 & Fb & Fk & Sp).
  destruct (RI k Fk) as [n1 R1]. rewrite E1 in R. apply reads_blanks in R; [|exact Fb]. destruct R as [n2 R2].
  apply reads_step. exists (n1 + n2). cbn [read_step]. destruct S as (Bh & _). rewrite Bh, M, Op, Ru, At, Sq, Mk. cbn [is_some].
  unfold read_item. rewrite I. unfold item_lines. rewrite Bl, Sp. cbn [add_to]. cbn [first_box]. rewrite TB.
  rewrite (read_mono n1 (n1 + n2) ltac:(lia) _ _ R1), (read_mono n2 (n1 + n2) ltac:(lia) _ _ R2).
  f_equal. unfold add_item. rewrite E1, next_item_blanks by exact Fb. reflexivity.
Qed.
(** An item without content. *)
Definition empty_head_line (h : str) (m : marker) : Prop :=
  (exists w, item_line h = Some (m, w, [])) /\ shallow h /\ opening_fence h = None
  /\ exists s, margin h = Some s /\ is_rule s = false /\ read_atx s = None /\ starts_quote s = false /\ is_some (marker_of s) = true.
Lemma reads_empty_item : forall h m rest bs, empty_head_line h m -> item_end rest -> reads rest bs ->
  reads (h :: rest) (add_item m (None, []) rest bs).
Proof.
  intros h m rest bs ((w & I) & Sh & Op & s & M & Ru & At & Sq & Mk) E [n R]. apply reads_step. exists (S n). cbn [read_step].
  destruct Sh as (Bh & _). rewrite Bh, M, Op, Ru, At, Sq, Mk. cbn [is_some]. unfold read_item. rewrite I.
  assert (IL : item_lines w [] rest = Some ([], rest)).
  { unfold item_lines. cbn [is_blank forallb]. destruct rest as [|l r]; [reflexivity|].
    destruct E as [[B _]|[_ K]]; [rewrite B|rewrite K, orb_true_r]; reflexivity. }
  rewrite IL. cbn [first_box]. rewrite (read_mono n (S n) ltac:(lia) _ _ R). reflexivity.
Qed.

(** A term and its details in front of what follows. *)
Definition details_mark : str := lit ":   ".
Lemma details_mark_head : forall l, begins_dark l -> details_head (details_mark ++ l) = Some (4, l) /\ is_blank (details_mark ++ l) = false
  /\ margin (details_mark ++ l) = Some (details_mark ++ l).
Proof.
  intros l (c & r & -> & D). assert (T : ceq c c_sp = false) by (apply ceq_false; intros ->; discriminate). split; [|split; reflexivity].
  unfold details_head. change (margin (details_mark ++ c :: r)) with (Some (c_colon :: spaces 3 ++ c :: r)). cbv iota zeta.
  assert (Rl : run_len c_sp (spaces 3 ++ c :: r) = 3).
  { unfold spaces. rewrite run_len_repc. cbn [run_len]. rewrite T. reflexivity. }
  assert (Sk : skipn 3 (spaces 3 ++ c :: r) = c :: r) by reflexivity.
  rewrite Rl, Sk. cbn [hd]. rewrite (dark_not_blank c D). change (ceq c_colon c_colon) with true. cbn [andb negb Nat.leb]. f_equal. f_equal.
  change (details_mark ++ c :: r) with (c_colon :: spaces 3 ++ c :: r). cbn [List.length]. lia.
Qed.
Lemma reads_entry : forall x ls l more rest inner bs bs', para_lines x ls -> begins_dark l -> aligned 4 more -> item_end rest ->
  (forall k, Forall (fun l => is_blank l = true) k -> reads (l :: more ++ k) inner) -> reads rest bs ->
  add_entry (map words (segments x), inner) bs = Some bs' ->
  reads (ls ++ (details_mark ++ l) :: map (ind 4) more ++ rest) bs'.
Proof.
  intros x ls l more rest inner bs bs' P D A E RI R Ae. destruct (details_mark_head l D) as (Dh & Bl & Mg).
  destruct (item_span_ind 4 more rest false ltac:(lia) ltac:(lia) A E) as (k & rest' & bl & E1 & Fb & Fk & Sp).
  destruct (RI k Fk) as [n1 R1]. rewrite E1 in R. apply reads_blanks in R; [|exact Fb]. destruct R as [n2 R2].
  destruct ls as [|t ts]; [destruct (pl_nonempty _ _ P eq_refl)|]. cbn [app]. apply reads_step. exists (n1 + n2).
  pose proof (pl_plain _ _ P) as Pl. rewrite step_para.
  - rewrite (pl_pieces _ _ P). unfold read_text. cbn [details_next]. rewrite Bl, Dh, Sp.
    cbn [app]. rewrite (read_mono n1 (n1 + n2) ltac:(lia) _ _ R1), (read_mono n2 (n1 + n2) ltac:(lia) _ _ R2). exact Ae.
  - apply (Forall_inv Pl).
  - exact (pl_marker _ _ P).
  - exact (pl_define _ _ P).
  - apply (Forall_inv_tail Pl).
  - assert (Ul : underline (details_mark ++ l) = None).
    { change (details_mark ++ l) with (c_colon :: spaces 3 ++ l). unfold underline. rewrite drop_while_end_cons. destruct (drop_while_end is_blank_char (spaces 3 ++ l)); reflexivity. }
    unfold ended. cbn [continuation]. rewrite Bl, Mg, Ul, Dh. reflexivity.
Qed.

(** ** Markers *)
(** The item does not look like a thematic break. *)
Definition unruled (m : marker) (l : str) : Prop :=
  match m with BulletOf c => c = c_plus \/ l = [] \/ forallb (fun x => ceq x c || is_blank_char x) l = false | NumberOf _ _ => True end.
Lemma mark_shape : forall h m w, item_mark h m w -> exists a s0 b, h = spaces a ++ s0 ++ spaces b /\ a <= 3 /\ 1 <= b <= 4
  /\ w = a + List.length s0 + b
  /\ (exists c r, s0 = c :: r /\ is_ws c = false /\ (is_bullet c = true \/ is_ascii_digit c = true) /\ (forall n, m = NumberOf n c_dot -> True))
  /\ (forall r, blank_or_end r = true -> marker_of (s0 ++ r) = Some (m, r))
  /\ (forall l, unruled m l -> is_rule (s0 ++ spaces b ++ l) = false)
  /\ match m with BulletOf c => s0 = [c] | NumberOf _ _ => True end.
Proof.
  intros h m w H. destruct H as [a c b B A Bb|a ds d b D L Dd A Bb].
  - exists a, [c], b. repeat split; auto; try lia.
    + exists c, []. pose proof (bullet_dark c B) as Dk. unfold dark_char in Dk. apply negb_true_iff in Dk. repeat split; auto.
    + intros r E. cbn [app marker_of]. rewrite B, E. reflexivity.
    + intros l U. cbn [unruled] in U. unfold is_rule. rewrite !orb_false_iff.
      assert (G : forall x, ceq x c_sp = false /\ ceq x c_plus = false -> rule_of x ([c] ++ spaces b ++ l) = false).
      { intros x [X X']. unfold rule_of. apply andb_false_iff. destruct U as [->|[->|U]].
        { left. cbn [app forallb]. destruct (ceq_spec c_plus x) as [<-|_]; [discriminate|reflexivity]. }
        { right. rewrite app_nil_r. cbn [app filter].
          assert (Z : filter (ceq x) (spaces b) = []).
          { clear - X. unfold spaces, repc. induction b as [|b IH]; [reflexivity|]. cbn [repeat filter]. rewrite X. exact IH. }
          rewrite Z. destruct (ceq x c); reflexivity. }
        left. cbn [app forallb]. destruct (ceq_spec c x) as [<-|N].
        - rewrite forallb_app, U. rewrite andb_false_r. apply andb_false_r.
        - pose proof (bullet_dark c B) as Dk. unfold dark_char in Dk. apply negb_true_iff in Dk. rewrite (dark_not_blank c Dk). reflexivity. }
      rewrite !G by (split; reflexivity). auto.
  - exists a, (ds ++ [d]), b. repeat split; auto; try lia.
    + rewrite app_length. cbn. lia.
    + destruct ds as [|x ds]; [cbn in L; lia|]. exists x, (ds ++ [d]). inversion D; subst. pose proof (digit_dark x H1) as Dk.
      unfold dark_char in Dk. apply negb_true_iff in Dk. repeat split; auto.
    + intros r E. rewrite <- app_assoc. apply marker_number; assumption.
    + intros l _. unfold is_rule. rewrite !orb_false_iff.
      assert (G : forall x, is_ascii_digit x = false -> rule_of x ((ds ++ [d]) ++ spaces b ++ l) = false).
      { intros x X. unfold rule_of. apply andb_false_iff. left. destruct ds as [|y ds]; [cbn in L; lia|]. cbn [app forallb]. inversion D; subst.
        pose proof (digit_dark y H1) as Dk. unfold dark_char in Dk. apply negb_true_iff in Dk.
        destruct (ceq_spec y x) as [->|N]; [congruence|]. rewrite (dark_not_blank y Dk). reflexivity. }
      rewrite !G by reflexivity. auto.
Qed.
Lemma run_spaces_dark : forall a l, (forall r, l <> c_sp :: r) -> run_len c_sp (spaces a ++ l) = a.
Proof. intros a l H. unfold spaces. rewrite run_len_repc, run_len_no by exact H. lia. Qed.
Lemma margin_spaces : forall a l, a <= 3 -> begins_dark l -> margin (spaces a ++ l) = Some l.
Proof.
  intros a l A (c & t & -> & D). assert (H : forall r, c :: t <> c_sp :: r) by (intros r E; injection E as -> _; discriminate). unfold margin, fence_indent. rewrite run_spaces_dark by exact H. replace (a <=? 3) with true by lia.
  unfold spaces. rewrite skipn_repc. assert (T : ceq c c_tab = false) by (apply ceq_false; intros ->; discriminate). rewrite T. reflexivity.
Qed.
Lemma is_blank_spaces : forall n l, is_blank (spaces n ++ l) = is_blank l.
Proof. intros n l. unfold is_blank. rewrite forallb_app. induction n as [|n IH]; [reflexivity|exact IH]. Qed.
Lemma mark_line : forall h m w t, item_mark h m w -> unruled m t -> (t = [] \/ begins_dark t) ->
  shallow (h ++ t) /\ opening_fence (h ++ t) = None
  /\ (exists s, margin (h ++ t) = Some s /\ is_rule s = false /\ read_atx s = None /\ starts_quote s = false /\ is_some (marker_of s) = true)
  /\ exists w', item_line (h ++ t) = Some (m, w', t) /\ (t <> [] -> w' = w).
Proof.
  intros h m w t H U T. destruct (mark_shape h m w H) as (a & s0 & b & -> & A & B & Ew & (c & r & Es & Dc & K & _) & Mk & Ru & _).
  set (s := s0 ++ spaces b ++ t).
  assert (Eh : (spaces a ++ s0 ++ spaces b) ++ t = spaces a ++ s) by (unfold s; rewrite <- !app_assoc; reflexivity). rewrite Eh.
  assert (Ec : s = c :: (r ++ spaces b ++ t)) by (unfold s; rewrite Es; reflexivity).
  assert (Nsp : forall r', s <> c_sp :: r') by (intros r' E; rewrite Ec in E; injection E as -> _; discriminate).
  assert (Mg : margin (spaces a ++ s) = Some s) by (apply margin_spaces; [exact A|rewrite Ec; eexists; eauto]).
  assert (Rl : is_rule s = false) by (apply Ru; exact U).
  assert (Bs : is_blank (spaces a ++ s) = false) by (rewrite is_blank_spaces, Ec; unfold is_blank; cbn [forallb]; rewrite (dark_not_blank c Dc); reflexivity).
  assert (Mks : marker_of s = Some (m, spaces b ++ t)).
  { unfold s. apply Mk. destruct b as [|b]; [lia|]. reflexivity. }
  assert (Nc : c <> c_bt /\ c <> c_tilde /\ N.eqb c 35 = false /\ ceq c c_gt = false).
  { destruct K as [K|K].
    - unfold is_bullet in K. rewrite !orb_true_iff, !ceq_true in K. destruct K as [[->| ->]| ->]; repeat split; discriminate.
    - unfold is_ascii_digit in K. repeat split; try (intros ->; discriminate K).
      + apply N.eqb_neq. intros ->. discriminate K.
      + apply ceq_false. intros ->. discriminate K. }
  destruct Nc as (N1 & N2 & N3 & N4).
  split; [|split; [|split]].
  - split; [exact Bs|]. split; [rewrite run_spaces_dark by exact Nsp; exact A|]. rewrite tabbed_spaces. unfold tabbed. rewrite run_len_no by exact Nsp.
    cbn [skipn]. rewrite Ec. apply ceq_false. intros ->. discriminate.
  - unfold opening_fence, fence_indent. rewrite run_spaces_dark by exact Nsp. replace (a <=? 3) with true by lia. unfold spaces at 1. rewrite skipn_repc, Ec.
    apply ceq_false in N1. apply ceq_false in N2. rewrite N1, N2. reflexivity.
  - exists s. split; [exact Mg|]. split; [exact Rl|]. split; [|split].
    + unfold read_atx. rewrite Ec. cbn [count_hashes]. rewrite N3. reflexivity.
    + rewrite Ec. exact N4.
    + rewrite Mks. reflexivity.
  - unfold item_line. rewrite Mg, Rl, Mks. rewrite is_blank_spaces. destruct T as [->|D].
    + cbn [is_blank forallb]. eexists. split; [reflexivity|]. congruence.
    + destruct (dark_margin t D) as (_ & -> & Rt & _).
      assert (Nt : forall r', t <> c_sp :: r') by (destruct D as (y & t' & -> & Dy); intros r' E; injection E as -> _; discriminate).
      rewrite run_spaces_dark by exact Nt. assert (Sk : skipn b (spaces b ++ t) = t) by (unfold spaces; apply skipn_repc). rewrite !Sk.
      assert (Hd : is_blank_char (hd c_tab t) = false) by (destruct D as (y & t' & -> & Dy); apply dark_not_blank; exact Dy).
      rewrite Hd. replace ((1 <=? b) && (b <=? 4)) with true by lia. cbn [negb andb].
      eexists. split; [reflexivity|]. intros _. unfold s. rewrite Ew. rewrite !app_length. unfold spaces, repc. rewrite !repeat_length. lia.
Qed.
Lemma mark_head : forall h m w l, item_mark h m w -> unruled m l -> begins_dark l -> item_head_line h m w l.
Proof.
  intros h m w l H U D. destruct (mark_line h m w l H U ltac:(auto)) as (A & B & C & w' & E & W). unfold item_head_line.
  destruct (dark_margin l D) as (_ & Bl & _). rewrite W in E by (destruct D as (c & r & -> & _); discriminate). auto 10.
Qed.
Lemma mark_empty : forall h m w, item_mark h m w -> empty_head_line h m.
Proof.
  intros h m w H. assert (U : unruled m []) by (destruct m; [right; left; reflexivity|exact Logic.I]).
  destruct (mark_line h m w [] H U ltac:(auto)) as (A & B & C & w' & E & _). rewrite app_nil_r in *. split; [eauto|auto].
Qed.

Lemma plain_unruled : forall m l, begins_dark l -> opener (fw l) = false -> match m with BulletOf c => is_bullet c = true | _ => True end -> unruled m l.
Proof.
  intros [c|ds d] l D O B; [|exact Logic.I]. cbn [unruled]. apply opener_parts in O. destruct O as (_ & _ & _ & H1 & _ & _ & _ & H2 & _).
  unfold is_bullet in B. rewrite !orb_true_iff, !ceq_true in B. destruct B as [[->| ->]| ->]; [|left; reflexivity|]; right; right.
  - destruct (forallb _ l) eqn:E; [|reflexivity]. apply (forallb_fw_dark _ (fun c => ceq c c_dash || ceq c c_colon || ceq c c_pipe)) in E; [congruence|].
    intros y W Q. apply orb_true_iff in Q. destruct Q as [Q|Q]; [rewrite Q; reflexivity|rewrite dark_not_blank in Q; [discriminate|exact W]].
  - destruct (forallb _ l) eqn:E; [|reflexivity]. apply (forallb_fw_dark _ (ceq c_star)) in E; [unfold all_of in H1; congruence|].
    intros y W Q. apply orb_true_iff in Q. destruct Q as [Q|Q]; [|rewrite dark_not_blank in Q; [discriminate|exact W]]. apply ceq_true in Q. subst. apply ceq_refl.
Qed.
Lemma box_unruled : forall m r, match m with BulletOf c => is_bullet c = true | _ => True end -> unruled m (c_lbr :: r).
Proof.
  intros [c|ds d] r B; [|exact Logic.I]. cbn [unruled]. right. right. cbn [forallb]. unfold is_bullet in B. rewrite !orb_true_iff, !ceq_true in B.
  destruct B as [[->| ->]| ->]; reflexivity.
Qed.
Lemma mark_bullet : forall h m w, item_mark h m w -> match m with BulletOf c => is_bullet c = true | _ => True end.
Proof. intros h m w []; auto. Qed.
Lemma unboxed_first : forall x l ls, para_lines x (l :: ls) -> unboxed x -> task_box l = Some (None, l).
Proof.
  intros x l ls P [U1 U2]. pose proof (pl_words _ _ P) as W. cbn [map List.concat] in W.
  destruct l as [|a [|b [|c r]]]; try reflexivity. unfold task_box.
  destruct (ceq a c_lbr && ceq c c_rbr && (ceq b c_sp || ceq b 120%N || ceq b 88%N) && blank_or_end r) eqn:E; [|reflexivity]. exfalso.
  rewrite !andb_true_iff, !orb_true_iff, !ceq_true in E. destruct E as [[[-> ->] B] R]. apply blank_end in R.
  assert (G : forall v, Forall (fun c => dark_char c = true) v -> v <> [] -> split_whitespace (v ++ r) = v :: split_whitespace r).
  { intros v D N. unfold split_whitespace at 1. rewrite split_ws_aux_word; [reflexivity|exact D|left; exact N|exact R]. }
  assert (Gx : forall y, dark_char y = true -> split_whitespace (c_lbr :: y :: c_rbr :: r) = [c_lbr; y; c_rbr] :: split_whitespace r).
  { intros y Dy. apply (G [c_lbr; y; c_rbr]); [|discriminate]. constructor; [reflexivity|]. constructor; [exact Dy|]. constructor; [reflexivity|constructor]. }
  destruct B as [[->| ->]| ->].
  - assert (K : split_whitespace (c_lbr :: c_sp :: c_rbr :: r) = [c_lbr] :: [c_rbr] :: split_whitespace r).
    { transitivity ([c_lbr] :: split_whitespace ([c_rbr] ++ r)); [reflexivity|]. rewrite (G [c_rbr]); [reflexivity|dark_lit|discriminate]. }
    rewrite K in W. cbn [app] in W. exact (U1 _ (eq_sym W)).
  - rewrite Gx in W by reflexivity. cbn [app] in W. apply U2. rewrite <- W. left. reflexivity.
  - rewrite Gx in W by reflexivity. cbn [app] in W. apply U2. rewrite <- W. right. left. reflexivity.
Qed.
