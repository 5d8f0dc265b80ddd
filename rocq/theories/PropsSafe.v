(** C31: formatting ends without a panic. *)
From Coq Require Import Bool Arith NArith ZArith Lia ZifyBool ZifyNat ZifyN String List.
From Verif Require Import Base BaseFacts OptsModel WrapModel CodeModel TableModel HeadingModel AstModel StateModel
  InlineModel WarnModel SerModel SpecContext SerFacts SpecSafe SafeProof PropsDoc.
Import ListNotations.

(** Every function of the model is total; what is left are the panics.  A
    document whose items stand in lists, without backward positions and, in a
    build with overflow checks, without line 0 and without a plain footnote
    whose label is wider than a line, never panics: for every option set, every
    source and every formatter. *)
Theorem C31_no_panic_partial : forall U PN ENT o B src ends_nl checks n,
  sound U o src checks n -> exists s, serialize_root U PN ENT o B src ends_nl checks n = Ok s.
Proof.
  intros U PN ENT o B src ends_nl checks n [P G L N]. unfold serialize_root.
  destruct (safe_serialize U PN ENT o B src ends_nl checks n None false P) with (s := init_st) as (s & E & _).
  - split; [exact G|]. split; [exact L|exact N].
  - constructor.
  - destruct n as [v p cs]. cbn [well_placed] in P. apply andb_true_iff in P. destruct P as [P _]. unfold need. cbn [node_value].
    destruct (is_item v); [discriminate P|]. apply Nat.le_0_l.
  - exists s. exact E.
Qed.
(** Without overflow checks positions are all that matters. *)
Theorem C31_release : forall U PN ENT o B src ends_nl n,
  well_placed false n = true -> (forall m, within m n -> ~ backward src (node_pos m)) ->
  exists s, serialize_root U PN ENT o B src ends_nl false n = Ok s.
Proof.
  intros U PN ENT o B src ends_nl n P G. apply C31_no_panic_partial. split; [exact P|exact G| |]; discriminate.
Qed.
(** Positions that start before they end are never backward. *)
Lemma forward : forall src p, start_col p <= end_col p + 1 -> ~ backward src p.
Proof.
  intros src p H (_ & _ & u & w & t & _ & Hw & H1 & H2). rewrite byte_len_app in H2. destruct w as [|c w]; [congruence|].
  unfold byte_len at 2 in H2. cbn [fold_right] in H2. pose proof (utf8_len_pos c). lia.
Qed.

(** The slices of [get_reference_style_info], which mix byte and character
    indices, are in range: the closing bracket comes after the first bracket
    and inside the text. *)
Theorem C31_reference_slice : forall s k, closing_bracket 0%Z s = Some k -> 1 <= k < List.length s.
Proof.
  assert (G : forall s d k, closing_bracket d s = Some k -> k < List.length s /\ ((d <= 0)%Z -> 1 <= k)).
  { induction s as [|x s IH]; intros d k E; [discriminate|]. cbn [closing_bracket] in E. cbn [List.length].
    destruct (ceq x c_lbr).
    - destruct (closing_bracket (d + 1)%Z s) as [j|] eqn:J; [|discriminate]. injection E as <-. destruct (IH _ _ J). split; lia.
    - destruct (ceq x c_rbr).
      + destruct (d - 1 =? 0)%Z eqn:Z; [injection E as <-; split; lia|].
        destruct (closing_bracket (d - 1)%Z s) as [j|] eqn:J; [|discriminate]. injection E as <-. destruct (IH _ _ J). split; lia.
      + destruct (closing_bracket d s) as [j|] eqn:J; [|discriminate]. injection E as <-. destruct (IH _ _ J). split; lia. }
  intros s k E. destruct (G _ _ _ E). split; [|assumption]. apply H0. lia.
Qed.

(** ** Examples *)
Definition opts31 (width : nat) : Options :=
  mkOptions width true true false [] [] UHyphen 1 2 4 OPeriod OParenthesis PadStart 4 FTilde 4 true []
    default_thematic_break_style 3 true true true true DDisabled DDisabled [].
Definition src31 : list str := [lit "a[^note]"; []; lit "[^note]: b"].
Definition tree31 : node :=
  Node NDocument (mkPos 1 1 3 10)
    [Node NParagraph (mkPos 1 1 1 8) [Node (NText (lit "a")) (mkPos 1 1 1 1) []; Node (NFootnoteReference (lit "note")) (mkPos 1 2 1 8) []];
     Node (NFootnoteDefinition (lit "note")) (mkPos 3 1 3 10)
       [Node NParagraph (mkPos 3 10 3 10) [Node (NText (lit "b")) (mkPos 3 10 3 10) []]]].
Definition run31 (width : nat) (checks : bool) : res st :=
  serialize_root uni_ascii [] (fun _ => None) (opts31 width) (Wasm None) src31 true checks tree31.

Lemma within_inv : forall m v p cs, within m (Node v p cs) -> m = Node v p cs \/ exists c, In c cs /\ within m c.
Proof. intros m v p cs H. inversion H; subst; [left; reflexivity|right; eauto]. Qed.
Ltac nodes := repeat match goal with
  | H : within _ (Node _ _ _) |- _ => apply within_inv in H; destruct H as [->|(? & H & ?)]
  | H : In _ (_ :: _) |- _ => destruct H as [<-|H]
  | H : In _ [] |- _ => destruct H
  end.
(** The hypotheses hold of a document with a footnote and a wide enough line. *)
Example C31_sound : sound uni_ascii (opts31 80) src31 true tree31.
Proof.
  split; [reflexivity| | |].
  - intros m Wm. unfold tree31 in Wm. nodes; apply forward; cbn; lia.
  - intros _ m Wm. unfold tree31 in Wm. nodes; cbn; lia.
  - intros _ m name Wm V _. unfold tree31 in Wm. nodes; try discriminate V. injection V as <-. split; vm_compute; lia.
Qed.
Example C31_runs : exists s, run31 80 true = Ok s /\ output s = lit "a[^note]" ++ [c_nl; c_nl] ++ lit "[^note]: b" ++ [c_nl].
Proof. eexists. vm_compute. repeat split. Qed.

(** The smallest line width is 8; a footnote named "note" then makes
    [line_width - prefix.width()] underflow. *)
Theorem C31_label_refuted : exists U PN ENT o B src ends_nl n,
  serialize_root U PN ENT o B src ends_nl true n = Panic
  /\ well_placed false n = true /\ (forall m, within m n -> ~ backward src (node_pos m))
  /\ (forall m, within m n -> 1 <= start_line (node_pos m)) /\ 8 <= line_width o.
Proof.
  exists uni_ascii, [], (fun _ => None), (opts31 8), (Wasm None), src31, true, tree31.
  split; [vm_compute; reflexivity|]. split; [reflexivity|]. split; [|split].
  - intros m Wm. unfold tree31 in Wm. nodes; apply forward; cbn; lia.
  - intros m Wm. unfold tree31 in Wm. nodes; cbn; lia.
  - cbn. lia.
Qed.
(** A backward position panics in every build. *)
Theorem C31_position_refuted : exists U PN ENT o B src ends_nl n,
  serialize_root U PN ENT o B src ends_nl false n = Panic /\ well_placed false n = true.
Proof.
  exists uni_ascii, [], (fun _ => None), (opts31 80), (Wasm None), [lit "hello"], true,
    (Node NDocument (mkPos 1 1 1 5) [Node NParagraph (mkPos 1 5 1 2) []]). split; vm_compute; reflexivity.
Qed.
(** An item outside a list, in description details, panics. *)
Example C31_item : serialize_root uni_ascii [] (fun _ => None) (opts31 80) (Wasm None) [] true false
  (Node NDocument (mkPos 1 1 1 1) [Node NDescriptionDetails (mkPos 1 1 1 1) [Node NItem (mkPos 1 1 1 1) []]]) = Panic.
Proof. vm_compute. reflexivity. Qed.

Print Assumptions C31_no_panic_partial.
Print Assumptions C31_release.
Print Assumptions C31_reference_slice.
Print Assumptions C31_label_refuted.
Print Assumptions C31_position_refuted.
