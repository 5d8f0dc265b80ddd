(** C36: the order of reference and footnote sections. *)
From Coq Require Import Bool Arith NArith Lia ZifyBool ZifyNat ZifyN String List Sorted Permutation.
From Verif Require Import Base BaseFacts OptsModel CodeModel AstModel StateModel InlineModel WarnModel SerModel
  SpecState StateProof SerFacts.
Import ListNotations.

Lemma replace_char_map : forall s, replace_char c_nul [c_sp] s = map (fun c => if N.eqb c 0 then c_sp else c) s.
Proof.
  induction s as [|c s IH]; [reflexivity|]. unfold replace_char in *. cbn [flat_map map]. rewrite IH.
  unfold ceq, c_nul. destruct (N.eqb c 0); reflexivity.
Qed.
Lemma reference_text_line : forall r, reference_text r = definition_line r.
Proof.
  intro r. unfold reference_text, definition_line, title_suffix. rewrite replace_char_map.
  destruct (ref_title r); reflexivity.
Qed.
Lemma flat_map_ext_list : forall A B (f g : A -> list B) l, (forall x, f x = g x) -> flat_map f l = flat_map g l.
Proof. intros A B f g l H. induction l as [|x l IH]; [reflexivity|]. cbn [flat_map]. rewrite H, IH. reflexivity. Qed.
Lemma blank_before_separates : forall out, separates out (blank_before out).
Proof.
  intro out. unfold blank_before, separates. destruct (ends_with [c_nl; c_nl] out) eqn:E1.
  - apply ends_with_true in E1. auto.
  - destruct (ends_with [c_nl] out) eqn:E2.
    + right. left. split; [reflexivity|]. apply ends_with_true in E2. destruct E2 as [x ->].
      exists x. split; [reflexivity|]. intros y ->. rewrite <- app_assoc in E1.
      assert (X : ends_with [c_nl; c_nl] (y ++ [c_nl] ++ [c_nl]) = true) by (apply ends_with_true; exists y; reflexivity).
      cbn [app] in *. congruence.
    + right. right. split; [reflexivity|]. intros x ->.
      assert (X : ends_with [c_nl] (x ++ [c_nl]) = true) by (apply ends_with_true; exists x; reflexivity). congruence.
Qed.

(** C36 for link references: at the end of a section, the definitions still
    to be written ([pending]) are written in the required order, each exactly
    once, as one block separated from the text. *)
Theorem C36_references : forall s pending,
  selects (fun r => ~ In (ref_label r) (emitted_references s)) (map snd (pending_references s)) pending ->
  exists s' out,
    flush_references s = Ok s'
    /\ section_order (fun r => numeric_label (ref_label r)) pending out
    /\ Permutation pending out
    /\ trace s' = trace s ++ map Def out
    /\ pending_references s' = []
    /\ (pending = [] -> output s' = output s)
    /\ (pending <> [] -> exists sep, separates (output s) sep
          /\ output s' = output s ++ sep ++ flat_map definition_line out).
Proof.
  intros s pending S. destruct (flush_references_eq s) as (s' & F & O & T & _ & P & _).
  assert (L : pending = live_references s).
  { eapply selects_unique; [|exact S]. intro r. rewrite negb_true_iff, mem_false. reflexivity. }
  rewrite <- L in *. exists s', (reference_order pending).
  assert (SO : section_order (fun r => numeric_label (ref_label r)) pending (reference_order pending))
    by (apply flush_order_spec; intros x n; symmetry; apply numeric_label_iff).
  split; [exact F|]. split; [exact SO|]. split.
  { eapply section_order_perm; [|exact SO]. intros x n. cbn beta. symmetry. apply numeric_label_iff. }
  split; [exact T|]. split; [exact P|]. split.
  - intros ->. rewrite O. unfold section_text. cbn [is_nil]. apply app_nil_r.
  - intro N. exists (blank_before (output s)). split; [apply blank_before_separates|].
    rewrite O. unfold section_text. apply is_nil_false in N. rewrite N.
    rewrite (flat_map_ext_list _ _ _ _ _ reference_text_line). reflexivity.
Qed.
Print Assumptions C36_references.

(** C36 for footnotes: those due (referenced before line [before], or all). *)
Theorem C36_footnotes : forall U o checks before s s' pending,
  flush_footnotes_before U o checks before s = Ok s' ->
  selects (fun kv => ~ In (fst kv) (f_emitted (footnotes s))
             /\ match before with
                | Some l => 0 < fn_reference_line (snd kv) < l
                | None => True
                end) (f_pending (footnotes s)) pending ->
  exists out texts,
    section_order (fun f => numeric_name (fn_name f)) (map snd pending) out
    /\ Permutation (map snd pending) out
    /\ trace s' = trace s ++ map Footnote out
    /\ Forall2 (fun f t => footnote_text U o checks f = Ok t) out texts
    /\ (pending = [] -> output s' = output s)
    /\ (pending <> [] -> exists sep, separates (output s) sep
          /\ output s' = output s ++ sep ++ List.concat texts).
Proof.
  intros U o checks before s s' pending F S. apply flush_footnotes_ok in F.
  destruct F as (texts & F2 & O & T & _).
  assert (L : map snd pending = due_footnotes before s).
  { unfold due_footnotes. f_equal.
    apply (selects_unique _ _ (fun kv => negb (mem (fst kv) (f_emitted (footnotes s)))
      && due before (fn_reference_line (snd kv)))) in S; [rewrite S; clear S|].
    - unfold live_footnotes. generalize (f_pending (footnotes s)). intro l.
      induction l as [|x l IH]; [reflexivity|]. cbn [filter]. destruct (negb (mem _ _)); cbn [andb filter]; [|exact IH].
      destruct (due _ _); rewrite IH; reflexivity.
    - intros [k f]. cbn [fst snd]. rewrite andb_true_iff, negb_true_iff, mem_false. unfold due.
      destruct before as [l|]; [|tauto]. split; intros [H1 H2]; split; auto; lia. }
  exists (footnote_order (due_footnotes before s)), texts. rewrite L.
  assert (SO : section_order (fun f => numeric_name (fn_name f)) (due_footnotes before s) (footnote_order (due_footnotes before s)))
    by (apply flush_order_spec; intros x n; symmetry; apply numeric_name_iff).
  split; [exact SO|]. split.
  { eapply section_order_perm; [|exact SO]. intros x n. cbn beta. symmetry. apply numeric_name_iff. }
  split; [exact T|]. split; [exact F2|].
  assert (Q : is_nil (due_footnotes before s) = is_nil pending) by (rewrite <- L; destruct pending; reflexivity).
  rewrite Q in O. split.
  - intros ->. rewrite O. unfold section_text. cbn [is_nil]. apply app_nil_r.
  - intro N. exists (blank_before (output s)). split; [apply blank_before_separates|].
    rewrite O. unfold section_text. apply is_nil_false in N. rewrite N. reflexivity.
Qed.
Print Assumptions C36_footnotes.

Lemma filter_filter_comm : forall A (p q : A -> bool) l, filter p (filter q l) = filter q (filter p l).
Proof.
  intros A p q l. induction l as [|x l IH]; [reflexivity|]. cbn [filter].
  destruct (p x) eqn:P; destruct (q x) eqn:Q; cbn [filter]; rewrite ?P, ?Q, IH; reflexivity.
Qed.
Lemma filter_id : forall A (p : A -> bool) l, (forall x, In x l -> p x = true) -> filter p l = l.
Proof.
  intros A p l H. induction l as [|x l IH]; [reflexivity|]. cbn [filter]. rewrite (H x) by (left; reflexivity).
  f_equal. apply IH. intros y I. apply H. right. exact I.
Qed.
Lemma first_occurrences_in : forall l x, In x (first_occurrences l) <-> In x l.
Proof.
  induction l as [|y l IH]; intro x; [reflexivity|]. cbn [first_occurrences In]. rewrite filter_In, IH.
  rewrite negb_true_iff, seqb_false. split; [tauto|]. intros [->|I]; [auto|].
  destruct (seqb x y) eqn:E; [apply seqb_true in E; auto|]. apply seqb_false in E. auto.
Qed.
Lemma first_occurrences_nodup : forall l, NoDup (first_occurrences l).
Proof.
  induction l as [|x l IH]; cbn [first_occurrences]; constructor.
  - rewrite filter_In. intros [_ E]. rewrite seqb_refl in E. discriminate.
  - apply NoDup_filter. exact IH.
Qed.
Lemma first_occurrences_id : forall l, NoDup l -> first_occurrences l = l.
Proof.
  intros l H. induction H as [|x l N H IH]; [reflexivity|]. cbn [first_occurrences]. rewrite IH. f_equal.
  apply filter_id. intros y I. rewrite negb_true_iff, seqb_false. intros ->. exact (N I).
Qed.
Lemma first_occurrences_snoc : forall l x,
  first_occurrences (l ++ [x]) = if mem x l then first_occurrences l else first_occurrences l ++ [x].
Proof.
  induction l as [|y l IH]; intro x; [reflexivity|]. cbn [app first_occurrences]. rewrite IH.
  unfold mem in *. cbn [existsb]. destruct (existsb (seqb x) l) eqn:E.
  - rewrite orb_true_r. reflexivity.
  - rewrite orb_false_r, filter_app. cbn [filter]. destruct (seqb x y) eqn:Q; cbn [negb];
      rewrite ?app_nil_r; reflexivity.
Qed.
Lemma first_occurrences_app_snoc : forall l m x, first_occurrences (first_occurrences (l ++ m) ++ [x]) = first_occurrences (l ++ m ++ [x]).
Proof.
  intros l m x. rewrite app_assoc, !first_occurrences_snoc.
  rewrite (first_occurrences_id (first_occurrences (l ++ m))) by apply first_occurrences_nodup.
  destruct (mem x (l ++ m)) eqn:M.
  - apply mem_true in M. rewrite <- first_occurrences_in in M. apply mem_true in M. rewrite M. reflexivity.
  - apply mem_false in M. rewrite <- first_occurrences_in in M. apply mem_false in M. rewrite M. reflexivity.
Qed.

(** The pending references are kept in order of first use since the last
    flush, whatever else is used. *)
Theorem C36_first_use : forall rs s,
  f_collecting (footnotes s) = false -> NoDup (map fst (pending_references s)) ->
  exists s', all (map add_reference rs) s = Ok s'
    /\ map fst (pending_references s')
       = first_occurrences (map fst (pending_references s) ++ map ref_label rs).
Proof.
  intros rs s C N. induction rs as [|r rs IH] using rev_ind.
  - exists s. split; [reflexivity|]. cbn [map]. rewrite app_nil_r, first_occurrences_id; auto.
  - destruct IH as (s1 & H1 & K).
    assert (C1 : f_collecting (footnotes s1) = false).
    { clear K. revert s s1 C N H1. induction rs as [|x rs IH]; intros s s1 C N H1; [injection H1 as <-; exact C|].
      cbn [map] in H1. rewrite all_cons in H1. apply seqa_ok in H1. destruct H1 as (m & Hm & H1).
      unfold add_reference, upd in Hm. injection Hm as <-. revert H1. rewrite C.
      apply IH; [exact C|]. cbn [pending_references set_pending]. apply imap_insert_nodup. exact N. }
    eexists. split.
    + rewrite map_app, all_app. unfold seqa. rewrite H1. cbn [rbind map].
      unfold all, seqa, add_reference, upd, nop. cbn [fold_right rbind]. rewrite C1. reflexivity.
    + cbn [pending_references set_pending]. rewrite imap_insert_keys, K, map_app. cbn [map].
      rewrite <- first_occurrences_app_snoc, first_occurrences_snoc.
      rewrite (first_occurrences_id (first_occurrences _)) by apply first_occurrences_nodup. reflexivity.
Qed.
Print Assumptions C36_first_use.

(** Labels "b", "#10", "9", "a" and "b" again, used in this order. *)
Definition use36 (l : str) : reference := mkRef l (lit "u") [].
Definition uses36 : list reference := map use36 [lit "b"; lit "#10"; lit "9"; lit "a"; lit "b"].
Example C36_example :
  match (all (map add_reference uses36) ;; flush_references) init_st with
  | Ok s' => output s' = [c_nl; c_nl] ++ lit "[b]: u" ++ [c_nl] ++ lit "[a]: u" ++ [c_nl]
                         ++ lit "[9]: u" ++ [c_nl] ++ lit "[#10]: u" ++ [c_nl]
  | Panic => False
  end.
Proof. vm_compute. reflexivity. Qed.
(** One numeric label only: order of first use.  "+7" is numeric too. *)
Example C36_one_numeric :
  match (all (map add_reference (map use36 [lit "9"; lit "a"])) ;; flush_references) init_st with
  | Ok s' => output s' = [c_nl; c_nl] ++ lit "[9]: u" ++ [c_nl] ++ lit "[a]: u" ++ [c_nl]
  | Panic => False
  end /\ numeric_label (lit "+7") 7.
Proof. split; [vm_compute; reflexivity|]. apply numeric_label_iff. reflexivity. Qed.

(** References used inside footnotes are flushed in a section of their own,
    and that section is not sorted: "#10" is written before "9" in

      Text[^n].

      [^n]: See [#10] and [9].
*)
Definition src36 : list str :=
  [lit "Text[^n]."; []; lit "[^n]: See [#10] and [9]."; []; lit "[#10]: u"; lit "[9]: v"].
Definition doc36 : node :=
  Node NDocument (mkPos 1 1 6 6)
    [Node NParagraph (mkPos 1 1 1 9)
       [Node (NText (lit "Text")) (mkPos 1 1 1 4) [];
        Node (NFootnoteReference (lit "n")) (mkPos 1 5 1 8) [];
        Node (NText (lit ".")) (mkPos 1 9 1 9) []];
     Node (NFootnoteDefinition (lit "n")) (mkPos 3 1 4 0)
       [Node NParagraph (mkPos 3 7 3 24)
         [Node (NText (lit "See ")) (mkPos 3 7 3 10) [];
          Node (NLink (lit "u") []) (mkPos 3 11 3 15) [Node (NText (lit "#10")) (mkPos 3 12 3 14) []];
          Node (NText (lit " and ")) (mkPos 3 16 3 20) [];
          Node (NLink (lit "v") []) (mkPos 3 21 3 23) [Node (NText (lit "9")) (mkPos 3 22 3 22) []];
          Node (NText (lit ".")) (mkPos 3 24 3 24) []]]].
Definition run36 : res st :=
  serialize_root uni_ascii [] (fun _ => None) default_options (Wasm None) src36 true true doc36.
Theorem C36_footnote_references_refuted : exists s' r1 r2,
  run36 = Ok s'
  /\ filter (fun e => match e with Use _ => true | _ => false end) (trace s') = [Use r1; Use r2]
  /\ filter (fun e => match e with Def _ => true | _ => false end) (trace s') = [Def r1; Def r2]
  /\ ~ section_order (fun r => numeric_label (ref_label r)) [r1; r2] [r1; r2].
Proof.
  eexists. exists (mkRef (lit "#10") (lit "u") []), (mkRef (lit "9") (lit "v") []).
  split; [vm_compute; reflexivity|]. split; [vm_compute; reflexivity|]. split; [vm_compute; reflexivity|].
  intros (numbered & plain & S1 & S2 & _ & H).
  assert (RN : forall (r : reference) n, numeric_label (ref_label r) n <-> extract_numeric_label (ref_label r) = Some n)
    by (intros; symmetry; apply numeric_label_iff).
  apply (selects_unique _ _ (fun r => match extract_numeric_label (ref_label r) with Some _ => true | None => false end)) in S1.
  - subst numbered. apply (selects_unique _ _ (fun r => match extract_numeric_label (ref_label r) with Some _ => false | None => true end)) in S2.
    + subst plain. destruct H as (sorted & E & _ & I & _); [vm_compute; lia|]. vm_compute in E. subst sorted.
      inversion I as [|x l _ F]; subst. inversion F as [|y m G _]; subst.
      assert (L : (10 <= 9)%N) by (apply G; apply numeric_label_iff; reflexivity). lia.
    + intro r. split.
      * intro G. destruct (extract_numeric_label (ref_label r)) as [n|] eqn:E; [|reflexivity].
        exfalso. apply (G n). apply RN. exact E.
      * intros G n Q. apply RN in Q. rewrite Q in G. discriminate.
  - intro r. split.
    + intros [n Q]. apply RN in Q. rewrite Q. reflexivity.
    + intro G. destruct (extract_numeric_label (ref_label r)) as [n|] eqn:E; [|discriminate]. exists n. apply RN. exact E.
Qed.
Print Assumptions C36_footnote_references_refuted.
