(** C27 and C28: lists and the formatting context. *)
From Coq Require Import Bool Arith NArith Lia ZifyBool ZifyNat ZifyN String List.
From Verif Require Import Base BaseFacts OptsModel WrapModel CodeModel TableModel HeadingModel AstModel StateModel
  InlineModel WarnModel SerModel SpecState SpecContext StateProof SerFacts SerBuilt ContextProof OutputProof DecFacts DecRead.
Import ListNotations.

Section Context.
Variable U : Uni.
Variable PN : list (str * str).
Variable ENT : str -> option str.
Variable o : Options.
Variable B : backend.
Variable src : list str.
Variable ends_nl : bool.
Variable checks : bool.
Notation ser := (serialize U PN ENT o B src ends_nl checks).

Lemma same_place_refl : forall c, same_place c c.
Proof. intro c. split; auto. Qed.
Lemma same_place_trans : forall a b c, same_place a b -> same_place b c -> same_place a c.
Proof.
  intros a b c [] []. split; try congruence. destruct sp_first, sp_first0; [left|right|right|right]; congruence.
Qed.

Lemma serialize_same_place : forall n next s s', ser next n s = Ok s' -> same_place (cx s) (cx s').
Proof.
  intros n next. refine (proj1 (kr_serialize U PN ENT o B src ends_nl checks same_place same_place false
    same_place_refl same_place_trans same_place_trans (fun _ _ H => H) (fun _ _ _ H => H) _ _ _ _ _ _ n next) _); [..|discriminate].
  - intros c c' []. split; cbn in *; auto.
  - intros k t cs c c' []. split; cbn in *; auto. lia.
  - intros x c c' []. split; cbn in *; auto.
  - intros c. split; cbn; auto.
  - intros c c' []. split; cbn in *; auto.
  - intros c c' []. split; cbn in *; auto.
Qed.

Lemma serialize_index : forall n next s s', well_placed false n = true -> ser next n s = Ok s' ->
  list_item_index (cx s') = list_item_index (cx s).
Proof.
  intros n next s s' W. revert s s'.
  refine (proj1 (kr_serialize U PN ENT o B src ends_nl checks
    (fun c c' => list_item_index c' = list_item_index c) (fun _ _ => True) true
    _ _ _ _ _ _ _ _ _ _ _ n next) (fun _ => W)); try discriminate; try (intros; cbn in *; congruence); auto.
Qed.

(** ** C28: serializing any node, in any state, restores the whole context;
    only the first-list flag may be cleared, and only a stray item outside a
    list could move the item counter. *)
Theorem C28_context_partial : forall n next s s', ser next n s = Ok s' ->
  same_place (cx s) (cx s')
  /\ (well_placed false n = true -> list_item_index (cx s') = list_item_index (cx s)).
Proof.
  intros n next s s' E. split; [apply (serialize_same_place _ _ _ _ E)|]. intro W. apply (serialize_index _ _ _ _ W E).
Qed.

(** Outside the first list of description details nothing at all changes. *)
Theorem C28_context_exact : forall n next s s',
  well_placed false n = true -> description_details_first_list (cx s) = false ->
  ser next n s = Ok s' -> cx s' = cx s.
Proof.
  intros n next s s' W F E. pose proof (serialize_same_place _ _ _ _ E) as []. pose proof (serialize_index _ _ _ _ W E) as I.
  rewrite F in sp_first. assert (FF : description_details_first_list (cx s') = false) by (destruct sp_first; auto).
  destruct (cx s), (cx s'); cbn in *. congruence.
Qed.

(** An item of a list moves the counter by one. *)
Lemma kids_placed : forall v p cs, well_placed true (Node v p cs) = true -> is_list_kind v = false ->
  kr_kids (fun c c' => list_item_index c' = list_item_index c) (combine cs (with_next ser cs)).
Proof.
  intros v p cs W L. cbn [well_placed] in W. apply andb_true_iff in W. destruct W as [_ W]. rewrite L in W.
  apply with_next_kids. rewrite Forall_forall. rewrite forallb_forall in W. intros c Hc nx s s' E.
  apply (serialize_index _ _ _ _ (W c Hc) E).
Qed.
Lemma item_index : forall task k, kr_kids (fun c c' => list_item_index c' = list_item_index c) k ->
  forall s s', list_item o B task k s = Ok s' -> list_item_index (cx s') = S (list_item_index (cx s)).
Proof.
  intros task k H s s' E. rewrite list_item_body in E. apply seqa_ok in E. destruct E as (m & E1 & E2).
  assert (R : list_item_index (cx s') = list_item_index (cx m)).
  { eapply (kr_item_body o B (fun c c' => list_item_index c' = list_item_index c)); [..|exact H|exact E2];
      intros; cbn in *; congruence. }
  rewrite R. injection E1 as <-. cbn. lia.
Qed.
Definition task_of (v : value) : option (option char) := match v with NTaskItem x => Some x | _ => None end.
Lemma serialize_item : forall v p cs next, is_item v = true ->
  ser next (Node v p cs) = list_item o B (task_of v) (combine cs (with_next ser cs)).
Proof. intros v p cs next H. destruct v; try discriminate H; reflexivity. Qed.
Theorem C28_items : forall n next s s', is_item (node_value n) = true -> well_placed true n = true ->
  ser next n s = Ok s' ->
  same_place (cx s) (cx s') /\ list_item_index (cx s') = S (list_item_index (cx s)).
Proof.
  intros [v p cs] next s s' I W E. split; [apply (serialize_same_place _ _ _ _ E)|].
  cbn [node_value] in I. rewrite (serialize_item v p cs next I) in E.
  eapply item_index; [|exact E]. eapply kids_placed; [exact W|]. destruct v; try discriminate I; reflexivity.
Qed.

(** ** C27 *)

(** What stands before the text of the item number [i] (from 0) of an ordered
    list that starts in the context [c]. *)
Definition task_text (v : value) : str :=
  match v with NTaskItem (Some _) => lit "[x] " | NTaskItem None => lit "[ ] " | _ => [] end.
Record item_start (c : ctx) (tight : bool) (i : nat) (v : value) (t : str) : Prop := {
  is_parts : exists num pad,
    t = (if negb tight && negb (i =? 0) then [c_nl] else [])
        ++ (if in_block_quote c then lit "> " else [])
        ++ (if in_description_details c
               && negb (description_details_first_list c && (i =? 0) && (list_depth c =? 0)) then lit "     " else [])
        ++ spaces (ordered_list_indent_width o * list_depth c)
        ++ num
        ++ [ordered_marker_char (if Nat.even (list_depth c) then odd_level_marker o else even_level_marker o)]
        ++ spaces (S pad)
        ++ task_text v
    /\ numeral num (N.of_nat (S i))
    /\ List.length num + 1 + S pad = Nat.max (ordered_list_indent_width o) (List.length num + 2)
}.

Inductive items_text (c : ctx) (tight : bool) : nat -> list node -> str -> Prop :=
| it_nil : forall i, items_text c tight i [] []
| it_cons : forall i n ns start body rest,
    item_start c tight i (node_value n) start ->
    items_text c tight (S i) ns rest ->
    items_text c tight i (n :: ns) (start ++ body ++ rest).

Lemma even_mod : forall n, (n mod 2 =? 1) = Nat.odd n.
Proof.
  intro n. destruct (Nat.Even_or_Odd n) as [[m ->]|[m ->]].
  - rewrite Nat.odd_mul, Nat.mul_comm, Nat.mod_mul by lia. reflexivity.
  - rewrite Nat.add_mod, Nat.mul_comm, Nat.mod_mul by lia. rewrite Nat.odd_add, Nat.odd_mul. cbn. rewrite andb_false_r. reflexivity.
Qed.
Lemma digits_byte_len : forall s, Forall (fun c => 48 <= c <= 57)%N s -> byte_len s = List.length s.
Proof.
  intros s H. induction H as [|c s Hc H IH]; [reflexivity|]. cbn [byte_len List.length].
  unfold byte_len in *. cbn [fold_right map] in *.
  assert (W : utf8_len c = 1) by (unfold utf8_len; destruct (c <? 128)%N eqn:E; [reflexivity|lia]).
  cbn. rewrite W. cbn in *. lia.
Qed.

Lemma item_head_start : forall c0 kind_cs tight i v c, is_item v = true ->
  same_place (enter_list Ordered tight kind_cs c0) c ->
  (i = 0 -> description_details_first_list c = description_details_first_list c0) ->
  list_item_index c = S i -> item_start c0 tight i v (item_head o c (task_of v)).
Proof.
  intros c0 cs tight i v c V [] F I. cbn in *. split.
  pose proof (dec_numeral (S i)) as N. exists (dec (S i)), (Nat.max (ordered_list_indent_width o - (byte_len (dec (S i)) + 1)) 1 - 1).
  split; [|split; [exact N|]].
  2:{ rewrite (digits_byte_len (dec (S i))) by apply N. unfold str, char in *. generalize (List.length (dec (S i))). intro L. lia. }
  unfold item_head, item_marker, item_indent_width. rewrite sp_type, sp_tight, sp_quote, sp_depth, sp_details, I.
  rewrite even_mod, Nat.add_1_r, Nat.odd_succ.
  replace (1 <? S i) with (negb (i =? 0)) by (destruct i; reflexivity).
  replace (S i =? 1) with (i =? 0) by reflexivity. replace (S (list_depth c0) =? 1) with (list_depth c0 =? 0) by reflexivity.
  replace (S (list_depth c0) - 1) with (list_depth c0) by lia.
  replace (S (Nat.max (ordered_list_indent_width o - (byte_len (dec (S i)) + 1)) 1 - 1))
    with (Nat.max (ordered_list_indent_width o - (byte_len (dec (S i)) + 1)) 1) by lia.
  assert (FF : description_details_first_list c && (i =? 0) = description_details_first_list c0 && (i =? 0)).
  { destruct i; [rewrite F by reflexivity; reflexivity|]. cbn. rewrite !andb_false_r. reflexivity. }
  rewrite FF. cbv zeta.
  replace (if 1 <? S (list_depth c0) then _ else _) with
    ((if in_description_details c0 && negb (description_details_first_list c0 && (i =? 0) && (list_depth c0 =? 0)) then lit "     " else [])
     ++ spaces (ordered_list_indent_width o * list_depth c0)).
  2:{ destruct (list_depth c0) eqn:D; [|reflexivity]. rewrite Nat.mul_0_r. cbn. rewrite app_nil_r. reflexivity. }
  rewrite <- !app_assoc. destruct (Nat.even (list_depth c0)); destruct v; try discriminate V; try destruct symbol; reflexivity.
Qed.

Lemma items_run : forall c0 tight cs items i s s',
  Forall (fun n => is_item (node_value n) = true /\ well_placed true n = true) items ->
  same_place (enter_list Ordered tight cs c0) (cx s) ->
  (i = 0 -> description_details_first_list (cx s) = description_details_first_list c0) ->
  list_item_index (cx s) = i ->
  children_acts (combine items (with_next ser items)) s = Ok s' ->
  exists t, items_text c0 tight i items t /\ output s' = output s ++ t.
Proof.
  intros c0 tight cs. induction items as [|n items IH]; intros i s s' F P D I E.
  - injection E as <-. exists []. split; [constructor|rewrite app_nil_r; reflexivity].
  - inversion F as [|? ? [Hi Hw] F']; subst. cbn [with_next combine] in E. unfold children_acts in E. cbn [map all fold_right snd] in E.
    apply seqa_ok in E. destruct E as (m & E1 & E2).
    pose proof (C28_items _ _ _ _ Hi Hw E1) as [P1 I1].
    assert (Q : same_place (enter_list Ordered tight cs c0) (cx m)) by (eapply same_place_trans; [exact P|exact P1]).
    destruct (IH (S (list_item_index (cx s))) m s' F' Q ltac:(discriminate) I1 E2) as (t & T & O).
    destruct n as [v p kc]. cbn [node_value] in Hi.
    assert (S1 : exists start body, item_start c0 tight (list_item_index (cx s)) v start /\ output m = output s ++ start ++ body).
    { rewrite (serialize_item v p kc _ Hi), list_item_body in E1. apply seqa_ok in E1. destruct E1 as (m1 & E1 & E3).
      injection E1 as E1. unfold item_body, get in E3. apply seqa_ok in E3. destruct E3 as (m2 & E3 & E4).
      injection E3 as E3. exists (item_head o (cx m1) (task_of v)).
      assert (G : grows m2 m).
      { revert E4. destruct (item_base_indent o (cx m1)) as [base|]; [|discriminate]. intro E4. revert E4.
        apply (built_gr U o checks true any_effect). btg. apply built_item_children; [apply any0|]. apply with_next_built. apply Forall_forall.
        intros c _. split; [intro nx; apply built_serialize; [apply any0|discriminate|apply any_ok]|apply (effects_links src checks); apply any_ok]. }
      destruct G as [[body G] _ _ _]. exists body. split.
      - apply item_head_start with cs; [exact Hi|..].
        + subst m1. destruct P. split; cbn in *; auto.
        + intro Z. rewrite <- (D Z). subst m1. reflexivity.
        + subst m1. cbn. lia.
      - rewrite G. subst m2. cbn. rewrite <- app_assoc. subst m1. reflexivity. }
    destruct S1 as (start & body & S1 & S2). exists (start ++ body ++ t). split.
    + constructor; assumption.
    + rewrite O, S2, <- !app_assoc. reflexivity.
Qed.

(** The items of an ordered list are numbered 1, 2, 3 ... in order, at one
    indentation; the delimiter is chosen by the parity of the nesting level. *)
Theorem C27_numbering : forall p tight items next s s',
  Forall (fun n => is_item (node_value n) = true /\ well_placed true n = true) items ->
  ser next (Node (NList Ordered tight) p items) s = Ok s' ->
  exists t, items_text (cx s) tight 0 items t /\ output s' = output s ++ t.
Proof.
  intros p tight items next s s' F E. cbn [serialize] in E. cbv zeta in E. unfold list_block, get in E.
  apply seqa_ok in E. destruct E as (m & E1 & E).
  apply seqa_ok in E. destruct E as (m2 & E2 & E). apply seqa_ok in E. destruct E as (m3 & E3 & E4).
  injection E1 as E1. injection E4 as E4. assert (M : m3 = m2).
  { destruct (list_depth (cx m2) =? 0); [discriminate|]. injection E3 as <-. reflexivity. }
  rewrite M in E4. clear E3 M.
  destruct (items_run (cx s) tight (map fst (combine items (with_next ser items))) items 0 m m2 F) as (t & T & O).
  - subst m. apply same_place_refl.
  - intros _. subst m. reflexivity.
  - subst m. reflexivity.
  - exact E2.
  - exists t. split; [exact T|]. subst s' m. exact O.
Qed.

(** All texts start at the same column as long as the numbers leave room. *)
Theorem C27_alignment_partial : forall c tight i v t, item_start c tight i v t ->
  (N.of_nat (S i) < 10 ^ N.of_nat (ordered_list_indent_width o - 2))%N ->
  List.length t = (if negb tight && negb (i =? 0) then 1 else 0) + (if in_block_quote c then 2 else 0)
    + (if in_description_details c
          && negb (description_details_first_list c && (i =? 0) && (list_depth c =? 0)) then 5 else 0)
    + ordered_list_indent_width o * list_depth c + ordered_list_indent_width o + List.length (task_text v).
Proof.
  intros c tight i v t [(num & pad & E & N & L)] H. pose proof (numeral_length _ _ _ N ltac:(lia) H) as K.
  assert (K2 : 0 < List.length num) by (destruct N; destruct num; [contradiction|cbn; lia]).
  subst t. rewrite !app_length. unfold spaces. rewrite !repeat_length. cbn [List.length].
  assert (W : ordered_list_indent_width o >= List.length num + 2).
  { destruct (Nat.le_gt_cases (ordered_list_indent_width o) 2) as [G|G]; [|lia]. exfalso.
    replace (ordered_list_indent_width o - 2) with 0 in H by lia. cbn in H. lia. }
  rewrite Nat.max_l in L by lia.
  destruct (negb tight && negb (i =? 0)); destruct (in_block_quote c);
    destruct (in_description_details c && negb (description_details_first_list c && (i =? 0) && (list_depth c =? 0)));
    cbn [List.length lit]; cbn; lia.
Qed.
End Context.
Print Assumptions C28_context_partial.
Print Assumptions C28_context_exact.
Print Assumptions C28_items.
Print Assumptions C27_numbering.
Print Assumptions C27_alignment_partial.

(** ** Examples and refutations *)
Definition p0 : sourcepos := mkPos 1 1 1 1.
Definition para28 (t : str) : node := Node NParagraph p0 [Node (NText t) p0 []].
Definition item28 (cs : list node) : node := Node NItem p0 cs.
Definition bullets28 (cs : list node) : node := Node (NList Bullet true) p0 cs.
Definition details28 (cs : list node) : node :=
  Node NDescriptionList p0
    [Node NDescriptionItem p0 [Node NDescriptionTerm p0 [para28 (lit "t")]; Node NDescriptionDetails p0 cs]].
Definition run28 (cs : list node) : res st :=
  serialize_root uni_ascii [] (fun _ => None) default_options (Wasm None) [lit "x"] true true (Node NDocument p0 cs).
Definition ser28 : option node -> node -> act :=
  serialize uni_ascii [] (fun _ => None) default_options (Wasm None) [lit "x"] true true.

(** C28: a quoted list and a description list do leave the context alone. *)
Example C28_witness :
  let n := Node NBlockQuote p0 [bullets28 [item28 [para28 (lit "a"); details28 [bullets28 [item28 [para28 (lit "b")]]]]]] in
  well_placed false n = true
  /\ match ser28 None n init_st with Ok s' => cx s' = init_ctx /\ output s' <> [] | Panic => False end.
Proof. vm_compute. split; [reflexivity|]. split; [reflexivity|discriminate]. Qed.

(** C28: inside the first list of description details a description list
    clears the flag, and a quoted list that follows is indented differently. *)
Definition quoted28 : node := Node NBlockQuote p0 [bullets28 [item28 [para28 (lit "c")]]].
Definition nested28 : node := details28 [bullets28 [item28 [para28 (lit "b")]]].
Definition doc28 (between : list node) : list node :=
  [details28 [bullets28 [item28 ([para28 (lit "a")] ++ between ++ [quoted28])]]].
(** The state in which the children of that item are serialized. *)
Definition inside28 : ctx := mkCtx 1 (Some Bullet) true false [] 1 true true 0 (lit "        ") [] 0.
Theorem C28_no_influence_refuted : exists s1 s2 s3,
  well_placed false nested28 = true /\ well_placed false quoted28 = true
  (* quoted28 alone *)
  /\ ser28 None quoted28 (set_cx inside28 init_st) = Ok s1
  /\ output s1 = lit "> -  c" ++ [c_nl]
  (* after its sibling *)
  /\ ser28 None nested28 (set_cx inside28 init_st) = Ok s2
  /\ ser28 None quoted28 (set_output [] s2) = Ok s3
  /\ output s3 = lit ">      -  c" ++ [c_nl]
  /\ cx s2 = set_first_list false inside28.
Proof. do 3 eexists. vm_compute. repeat split; reflexivity. Qed.
Print Assumptions C28_no_influence_refuted.
(** The same in whole documents. *)
Example C28_influence_document :
  match run28 (doc28 []), run28 (doc28 [nested28]) with
  | Ok a, Ok b => ends_with (lit "> -  c" ++ [c_nl]) (output a) = true
                  /\ ends_with (lit ">      -  c" ++ [c_nl]) (output b) = true
  | _, _ => False
  end.
Proof. vm_compute. split; reflexivity. Qed.

(** C27: two levels of ordered lists. *)
Definition ordered27 (cs : list node) : node := Node (NList Ordered true) p0 cs.
Example C27_witness :
  match run28 [ordered27 [item28 [para28 (lit "a"); ordered27 [item28 [para28 (lit "b")]; item28 [para28 (lit "c")]]];
                          item28 [para28 (lit "d")]]] with
  | Ok s => output s = lit "1.  a" ++ [c_nl] ++ lit "    1)  b" ++ [c_nl] ++ lit "    2)  c" ++ [c_nl] ++ lit "2.  d" ++ [c_nl]
  | Panic => False
  end.
Proof. vm_compute. reflexivity. Qed.
(** C27: the hundredth item starts one column later than the first. *)
Theorem C27_alignment_refuted : exists s,
  run28 [ordered27 (repeat (item28 [para28 (lit "a")]) 100)] = Ok s
  /\ nth_error (lines (output s)) 0 = Some (lit "1.  a")
  /\ nth_error (lines (output s)) 99 = Some (lit "100. a").
Proof. eexists. split; [vm_compute; reflexivity|]. split; vm_compute; reflexivity. Qed.
Print Assumptions C27_alignment_refuted.
