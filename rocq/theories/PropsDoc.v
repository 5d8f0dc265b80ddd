(** C23 and C24: disabled regions and disabled files. *)
From Coq Require Import Bool Arith NArith Lia ZifyBool ZifyNat ZifyN String List.
From Verif Require Import Base BaseFacts OptsModel WrapModel CodeModel TableModel HeadingModel AstModel StateModel
  InlineModel WarnModel SerModel SpecState SpecContext SpecDoc StateProof PropsState SerFacts PropsOrder SerBuilt OutputProof DocProof.
Import ListNotations.

Definition mode_of (m : skip_mode) : mode :=
  match m with SkipNone => Format | SkipNextBlock => NextBlock | SkipUntilSection => Section_ | SkipDisabled => Region end.

Lemma section_frozen : forall n, frozen Section_ n = negb (is_section_heading n).
Proof.
  intro n. unfold frozen, is_section_heading. destruct (node_value n); try reflexivity.
  destruct level as [|[|[|?]]]; reflexivity.
Qed.
Lemma gap_eq : forall prev n, block_separator prev n = gap prev n.
Proof.
  intros [p|] n; [|reflexivity]. unfold block_separator, gap, is_front_matter, heading_level, is_heading.
  destruct (node_value p); destruct (node_value n); try reflexivity; destruct level as [|[|[|?]]]; try reflexivity;
    destruct level0 as [|[|[|?]]]; reflexivity.
Qed.
Lemma trim_end_end_core : forall s, end_core s (trim_end s).
Proof.
  intro s. destruct (trim_end_app s) as (w & E & W). exists w. split; [exact E|]. split; [exact W|].
  intros r c H. destruct (is_ws c) eqn:C; [|reflexivity]. exfalso.
  pose proof (trim_end_idem s) as I. rewrite H, (trim_end_snoc_ws _ _ C) in I.
  destruct (trim_end_app r) as (v & E2 & _). apply (f_equal (@List.length char)) in E2. apply (f_equal (@List.length char)) in I.
  rewrite app_length in *. cbn [List.length] in I. lia.
Qed.

Section Doc.
Variable U : Uni.
Variable PN : list (str * str).
Variable ENT : str -> option str.
Variable o : Options.
Variable B : backend.
Variable src : list str.
Variable ends_nl : bool.
Variable checks : bool.
Hypothesis src_lines : src <> [] /\ Forall (fun l => ~ In c_nl l) src.
Notation ser := (serialize U PN ENT o B src ends_nl checks).
Notation dtext := (document_text U o checks src ends_nl).

Lemma heading_flush : forall (prev : option node) n s s',
  (match heading_level n, prev with
   | Some 2, Some _ | Some 3, Some _ => flush_all U o checks (Some (start_line (node_pos n)))
   | _, _ => nop
   end) s = Ok s' ->
  exists fl, definitions U o checks fl /\ output s' = output s ++ fl /\ skip s' = skip s
    /\ (prev = None \/ (node_value n <> NHeading 2 /\ node_value n <> NHeading 3) -> fl = []).
Proof.
  intros prev n s s' E.
  assert (N : nop s = Ok s' -> exists fl, definitions U o checks fl /\ output s' = output s ++ fl /\ skip s' = skip s
    /\ (prev = None \/ (node_value n <> NHeading 2 /\ node_value n <> NHeading 3) -> fl = [])).
  { intro Q. injection Q as <-. exists []. split; [apply definitions_nil|]. rewrite app_nil_r. auto. }
  unfold heading_level in E. destruct (node_value n) eqn:V; try (apply N; exact E).
  destruct level as [|[|[|[|?]]]]; try (apply N; exact E); (destruct prev; [|apply N; exact E]);
    apply flush_all_ok in E; destruct E as (fl & D & O & S); exists fl; (split; [exact D|]); (split; [exact O|]);
    (split; [exact S|]); (intros [Q|[Q1 Q2]]; [discriminate|congruence]).
Qed.

(** One block. *)
Lemma block_run : forall prev n next s s', no_document n = true ->
  document_block U o src checks prev n (ser next n) s = Ok s' ->
  exists fl x, definitions U o checks fl
    /\ (prev = None \/ (node_value n <> NHeading 2 /\ node_value n <> NHeading 3) -> fl = [])
    /\ output s' = output s ++ fl ++ gap prev n ++ x
    /\ mode_of (skip s') = after_block (mode_of (skip s)) n
    /\ ((frozen (mode_of (skip s)) n = true /\ exists y, source_of src n y /\ x = y ++ [c_nl])
        \/ (frozen (mode_of (skip s)) n = false \/ forall y, ~ spans (join [c_nl] src) (node_pos n) y)).
Proof.
  intros prev n next s s' D E. unfold document_block in E. cbv zeta in E. apply seqa_ok in E. destruct E as (m & E1 & E).
  apply heading_flush in E1. destruct E1 as (fl & F & O & S & FN). exists fl.
  apply seqa_ok in E. destruct E as (m2 & E2 & E3). injection E2 as <-. unfold get in E3.
  cbn [skip set_output] in E3. rewrite S in E3. rewrite gap_eq in E3.
  set (m2 := set_output (output m ++ gap prev n) m) in *.
  assert (M2 : output m2 = output s ++ fl ++ gap prev n) by (cbn; rewrite O, <- app_assoc; reflexivity).
  assert (S2 : skip m2 = skip s) by exact S.
  (* the formatted case *)
  assert (Fmt : forall m3, output m3 = output m2 -> ser next n m3 = Ok s' ->
            exists x, output s' = output s ++ fl ++ gap prev n ++ x /\ skip s' = skip m3).
  { intros m3 Q E. pose proof (serialize_inner _ _ _ _ _ _ _ _ _ _ _ _ D E) as [].
    pose proof (serialize_grows _ _ _ _ _ _ _ _ _ _ _ _ E) as [[x G] _ _ _]. exists x. split; [|exact in_skip].
    rewrite G, Q, M2, <- !app_assoc. reflexivity. }
  (* the verbatim case *)
  assert (Ver : forall m3, output m3 = output m2 ->
    (match extract_source src (node_pos n) with
     | Ok (Some source) => emit (source ++ [c_nl])
     | Ok None => ser next n
     | Panic => panic end) m3 = Ok s' ->
    exists x, output s' = output s ++ fl ++ gap prev n ++ x /\ skip s' = skip m3
      /\ ((exists y, source_of src n y /\ x = y ++ [c_nl]) \/ forall y, ~ spans (join [c_nl] src) (node_pos n) y)).
  { intros m3 Q E. destruct (extract_source src (node_pos n)) as [[y|]|] eqn:X; [| |discriminate].
    - injection E as <-. exists (y ++ [c_nl]). split; [cbn; rewrite Q, M2, <- !app_assoc; reflexivity|]. split; [reflexivity|].
      left. exists y. split; [|reflexivity]. intros z Z. apply (C32_exact _ _ _ (proj1 src_lines) (proj2 src_lines)) in Z. congruence.
    - destruct (Fmt _ Q E) as (x & G1 & G2). exists x. split; [exact G1|]. split; [exact G2|]. right.
      intros z Z. apply (C32_exact _ _ _ (proj1 src_lines) (proj2 src_lines)) in Z. congruence. }
  destruct (skip s) eqn:K; cbn [mode_of] in *.
  - destruct (Fmt m2 eq_refl E3) as (x & G1 & G2). exists x. rewrite G2, S2. cbn [mode_of frozen after_block]. auto 10.
  - apply seqa_ok in E3. destruct E3 as (m3 & E3 & E4). injection E3 as <-.
    destruct (Ver (set_skip SkipNone m2) eq_refl E4) as (x & G1 & G2 & G3). exists x. rewrite G2. cbn [skip set_skip mode_of frozen after_block].
    repeat (split; [solve [auto]|]). destruct G3; auto.
  - unfold after_block. rewrite section_frozen. destruct (is_section_heading n) eqn:H.
    + apply seqa_ok in E3. destruct E3 as (m3 & E3 & E4). injection E3 as <-.
      destruct (Fmt (set_skip SkipNone m2) eq_refl E4) as (x & G1 & G2). exists x. rewrite G2. cbn [skip set_skip mode_of negb]. auto 10.
    + destruct (Ver m2 eq_refl E3) as (x & G1 & G2 & G3). exists x. rewrite G2, S2. cbn [mode_of negb].
      repeat (split; [solve [auto]|]). destruct G3; auto.
  - destruct (Ver m2 eq_refl E3) as (x & G1 & G2 & G3). exists x. rewrite G2, S2. cbn [mode_of frozen after_block].
    repeat (split; [solve [auto]|]). destruct G3; auto.
Qed.

Lemma directive_run : forall prev n l d s s', d <> DisableFile ->
  directive_act U o checks prev n l d s = Ok s' ->
  exists fl, definitions U o checks fl
    /\ (d <> Disable -> d <> DisableNextLine -> d <> DisableNextSection -> fl = [])
    /\ output s' = output s ++ fl ++ match prev with Some _ => [c_nl] | None => [] end ++ l
    /\ mode_of (skip s') = after_directive (mode_of (skip s)) d.
Proof.
  intros prev n l d s s' N E. unfold directive_act in E. cbv zeta in E.
  destruct d; try congruence;
    try (apply seqa_ok in E; destruct E as (m & E1 & E); apply flush_all_ok in E1; destruct E1 as (fl & F & O & S);
         apply seqa_ok in E; destruct E as (m2 & E2 & E3); injection E2 as <-; injection E3 as <-;
         exists fl; split; [exact F|]; split; [congruence|]; cbn; rewrite O, <- !app_assoc; auto);
    (apply seqa_ok in E; destruct E as (m2 & E2 & E3); injection E2 as <-; injection E3 as <-;
     exists []; split; [apply definitions_nil|]; auto).
Qed.

(** The loop over the remaining children [cs] of [done ++ cs]. *)
Lemma loop_run : forall cs done prev s s',
  forallb no_document cs = true ->
  let ts := find_trailing_html_blocks (done ++ cs) in
  document_loop U o src ends_nl checks (ts - List.length done) prev (combine cs (with_next ser cs))
    (flush_all U o checks None ;; output_trailing true (skipn ts (done ++ cs))) s = Ok s' ->
  exists t, dtext (output s) prev (mode_of (skip s)) cs (htmls (skipn ts done)) t /\ output s' = output s ++ t.
Proof.
  induction cs as [|n cs IH]; intros done prev s s' D ts E.
  - cbn [combine document_loop with_next] in E. rewrite app_nil_r in *. apply seqa_ok in E. destruct E as (m & E1 & E2).
    apply flush_all_ok in E1. destruct E1 as (fl & F & O & _). apply output_trailing_first in E2.
    eexists. split; [|rewrite E2, O, <- app_assoc; reflexivity]. apply dt_end; [exact F|..].
    + intros ->. reflexivity.
    + intro H. apply is_nil_false in H. rewrite H. apply blank_before_separates.
  - cbn [with_next combine document_loop] in E. cbn [forallb] in D. apply andb_true_iff in D. destruct D as [Dn D].
    assert (Next : forall prev' s1, document_loop U o src ends_nl checks (ts - List.length done - 1) prev' (combine cs (with_next ser cs))
       (flush_all U o checks None ;; output_trailing true (skipn ts (done ++ n :: cs))) s1 = Ok s' ->
       exists t, dtext (output s1) prev' (mode_of (skip s1)) cs (htmls (skipn ts (done ++ [n]))) t /\ output s' = output s1 ++ t).
    { intros prev' s1 R. specialize (IH (done ++ [n]) prev' s1 s' D). cbv zeta in IH.
      rewrite <- app_assoc in IH. cbn [app] in IH. fold ts in IH. apply IH.
      rewrite app_length. cbn [List.length]. replace (ts - (List.length done + 1)) with (ts - List.length done - 1) by lia. exact R. }
    assert (HN : is_html_block n = false -> htmls (skipn ts (done ++ [n])) = htmls (skipn ts done)).
    { intro H. rewrite skipn_app. unfold htmls. rewrite flat_map_app. rewrite <- app_nil_r. f_equal.
      destruct (ts - List.length done) as [|k]; [|destruct k; reflexivity]. cbn. unfold is_html_block in H.
      destruct (node_value n); try reflexivity. discriminate. }
    assert (HL : ts - List.length done <> 0 -> htmls (skipn ts (done ++ [n])) = htmls (skipn ts done)).
    { intro H. rewrite skipn_app. destruct (ts - List.length done) as [|k]; [congruence|]. destruct k; cbn [skipn]; rewrite app_nil_r; reflexivity. }
    destruct ((ts - List.length done =? 0) && is_html_block n) eqn:Def.
    + apply andb_true_iff in Def. destruct Def as [T H]. apply Nat.eqb_eq in T.
      destruct (Next _ _ E) as (t & X & O). exists t. split; [|exact O].
      assert (TR : trails n cs) by (apply (trails_iff done n cs H); exact T).
      destruct (TR) as [[l L] _]. eapply dt_trailing; [exact TR|exact L|].
      replace (htmls (skipn ts done) ++ [l]) with (htmls (skipn ts (done ++ [n]))); [exact X|].
      rewrite skipn_app, T. unfold htmls. rewrite flat_map_app. cbn [skipn flat_map]. rewrite L. reflexivity.
    + assert (NT : ~ trails n cs).
      { intro TR. assert (H : is_html_block n = true) by (destruct TR as [[l L] _]; unfold is_html_block; rewrite L; reflexivity).
        apply (trails_iff done n cs H) in TR. fold ts in TR. rewrite H, TR in Def. discriminate. }
      destruct (is_footnote_def n) eqn:FD.
      * destruct (Next _ _ E) as (t & X & O). exists t. split; [|exact O]. apply dt_note; [apply note_iff; exact FD|].
        rewrite <- HN; [exact X|]. unfold is_footnote_def in FD. unfold is_html_block. destruct (node_value n); congruence.
      * (* not deferred *)
        assert (HS : htmls (skipn ts (done ++ [n])) = htmls (skipn ts done)).
        { destruct (is_html_block n) eqn:H; [|apply HN; reflexivity]. apply HL. rewrite andb_true_r in Def. apply Nat.eqb_neq in Def. exact Def. }
        assert (ND : ~ note_definition n) by (intro Q; apply note_iff in Q; congruence).
        assert (Ord : directive_of n = None -> ordinary n cs).
        { intro Q. split; [exact ND|]. split; [exact NT|]. intros d C. apply directs_iff in C. congruence. }
        assert (Blk : directive_of n = None ->
          (document_block U o src checks prev n (ser (hd_error cs) n) ;;
           document_loop U o src ends_nl checks (ts - List.length done - 1) (Some n) (combine cs (with_next ser cs))
             (flush_all U o checks None ;; output_trailing true (skipn ts (done ++ n :: cs)))) s = Ok s' ->
          exists t, dtext (output s) prev (mode_of (skip s)) (n :: cs) (htmls (skipn ts done)) t /\ output s' = output s ++ t).
        { intros Q R. apply seqa_ok in R. destruct R as (m & R1 & R2). apply block_run in R1; [|exact Dn].
          destruct R1 as (fl & x & F & FN & O & M & C). destruct (Next _ _ R2) as (t & X & O2).
          rewrite HS, M, O in X. destruct C as [[Fr (y & Y1 & ->)]|C].
          - eexists. split; [|rewrite O2, O, <- app_assoc; reflexivity].
            eapply dt_frozen; [apply Ord; exact Q|exact Fr|exact F|exact FN|exact Y1|exact X].
          - eexists. split; [|rewrite O2, O, <- app_assoc; reflexivity].
            eapply dt_formatted; [apply Ord; exact Q|exact C|exact F|exact FN|exact X]. }
        destruct (directive_of n) as [d|] eqn:Q.
        -- assert (DD : directs n d) by (apply directs_iff; exact Q).
           destruct (node_value n) eqn:V; try (unfold directive_of in Q; rewrite V in Q; discriminate Q).
           assert (DA : d <> DisableFile -> (directive_act U o checks prev n literal d ;;
             document_loop U o src ends_nl checks (ts - List.length done - 1) (Some n) (combine cs (with_next ser cs))
               (flush_all U o checks None ;; output_trailing true (skipn ts (done ++ n :: cs)))) s = Ok s' ->
             exists t, dtext (output s) prev (mode_of (skip s)) (n :: cs) (htmls (skipn ts done)) t /\ output s' = output s ++ t).
           { intros ND2 R. apply seqa_ok in R. destruct R as (m & R1 & R2). apply directive_run in R1; [|exact ND2].
             destruct R1 as (fl & F & FN & O & M). destruct (Next _ _ R2) as (t & X & O2). rewrite HS, M, O in X.
             eexists. split; [|rewrite O2, O, <- app_assoc; reflexivity].
             eapply dt_directive; [exact DD|exact ND2|exact V|exact F|exact FN|exact X]. }
           destruct d; try (apply DA; [discriminate|exact E]).
           unfold disable_file in E. apply seqa_ok in E. destruct E as (m & E1 & E). apply flush_all_ok in E1.
           destruct E1 as (fl & F & O & _). apply seqa_ok in E. destruct E as (m2 & E2 & E3). injection E2 as <-.
           assert (X : exists rest, output s' = output s ++ fl ++ trim_end literal ++ rest
             /\ (skipn (end_line (node_pos n)) src = [] -> rest = [])
             /\ (skipn (end_line (node_pos n)) src <> [] ->
                 rest = [c_nl] ++ join [c_nl] (skipn (end_line (node_pos n)) src) ++ (if ends_nl then [c_nl] else []))).
           { unfold extract_source_from_line in E3. rewrite Nat.add_1_r in E3. cbn [Nat.eqb] in E3.
             rewrite orb_false_r in E3. assert (SN : is_nil src = false) by (apply is_nil_false; apply src_lines). rewrite SN in E3.
             replace (S (end_line (node_pos n)) - 1) with (end_line (node_pos n)) in E3 by lia.
             destruct (List.length src <=? end_line (node_pos n)) eqn:LE.
             - injection E3 as <-. exists []. split; [cbn; rewrite O, app_nil_r, <- app_assoc; reflexivity|]. split; [auto|].
               intro Z. exfalso. apply Z. apply skipn_all2. apply Nat.leb_le. exact LE.
             - injection E3 as <-. eexists. split; [cbn; rewrite O, <- !app_assoc; reflexivity|]. split; [|reflexivity].
               intro Z. exfalso. apply Nat.leb_gt in LE. assert (LL := skipn_length (end_line (node_pos n)) src). rewrite Z in LL.
               cbn in LL. unfold str in *. lia. }
           destruct X as (rest & X1 & X2 & X3). eexists. split; [|exact X1].
           eapply dt_disable_file; [exact DD|exact V|apply trim_end_end_core|exact F|exact X2|exact X3].
        -- apply Blk; [reflexivity|]. destruct (node_value n); try exact E.
Qed.

(** ** C23, C24: the text of every document is its blocks in order; those in
    disabled regions are the source text, and after disable-file the source
    lines follow. *)
Theorem C23_C24_document_partial : forall p cs s',
  forallb no_document cs = true ->
  serialize_root U PN ENT o B src ends_nl checks (Node NDocument p cs) = Ok s' ->
  dtext [] None Format cs [] (output s').
Proof.
  intros p cs s' D E. unfold serialize_root in E. cbn [serialize] in E. cbv zeta in E. unfold document in E. cbv zeta in E.
  destruct (check_undefined checks src (Node NDocument p cs)) as [ws|]; [|discriminate].
  apply seqa_ok in E. destruct E as (m & E1 & E). injection E1 as <-.
  apply seqa_ok in E. destruct E as (m1 & E1 & E). apply seqa_ok in E. destruct E as (m2 & E2 & E3).
  assert (O1 : output m1 = [] /\ skip m1 = SkipNone).
  { pose proof (built_inner U o checks any_effect _ (built_collect_lines U o checks false any_effect _ (any_refs _)) _ _ E1) as [S _ _ _ _ _].
    assert (K : forall n s s', collect_reference_lines n s = Ok s' -> output s' = output s).
    { induction n as [v q l IH] using node_ind'. intros s s0 Q. cbn [collect_reference_lines] in Q.
      apply seqa_ok in Q. destruct Q as (y & Q1 & Q2).
      assert (Y : output y = output s).
      { destruct v; injection Q1 as <-; try reflexivity. cbv zeta. destruct (assoc_str name _); reflexivity. }
      rewrite <- Y. clear - IH Q2. revert y Q2. induction l as [|c l IHl]; intros y Q; [injection Q as <-; reflexivity|].
      cbn [map] in Q. rewrite all_cons in Q. apply seqa_ok in Q. destruct Q as (z & Q1 & Q2). inversion IH; subst.
      rewrite (IHl H2 _ Q2). eauto. }
    split; [rewrite (K _ _ _ E1); reflexivity|rewrite S; reflexivity]. }
  assert (MF : map fst (combine cs (with_next ser cs)) = cs).
  { clear. induction cs as [|c cs IH]; [reflexivity|]. cbn [with_next combine map fst]. rewrite IH. reflexivity. }
  rewrite MF in E3.
  assert (O2 : output m2 = [] /\ skip m2 = SkipNone).
  { destruct O1 as [O1 S1]. rewrite <- O1, <- S1. clear - E2 D. revert m1 E2. induction cs as [|c cs IH]; intros s E.
    - injection E as <-. auto.
    - cbn [with_next combine map] in E. rewrite all_cons in E. apply seqa_ok in E. destruct E as (z & Q1 & Q2).
      cbn [forallb] in D. apply andb_true_iff in D. destruct D as [Dc D].
      destruct (IH D _ Q2) as [A1 A2]. rewrite A1, A2. clear IH A1 A2 Q2. cbn [fst snd] in Q1.
      destruct (is_footnote_def c) eqn:F; [|injection Q1 as <-; auto]. split.
      + destruct c as [v q l]. unfold is_footnote_def in F. cbn [node_value] in F. destruct v; try discriminate F.
        cbn [serialize] in Q1. cbv zeta in Q1. exact (footnote_definition_output _ _ _ _ _ _ _ _ _ Q1).
      + apply (serialize_inner _ _ _ _ _ _ _ _ _ _ _ _ Dc Q1). }
  destruct O2 as [O2 S2].
  destruct (loop_run cs [] None m2 s' D) as (t & T & O).
  - cbn [List.length app]. rewrite Nat.sub_0_r. exact E3.
  - rewrite O2 in *. rewrite S2 in T. cbn [app] in *. rewrite O. replace (htmls (skipn _ [])) with (@nil str) in T; [exact T|].
    rewrite skipn_nil. reflexivity.
Qed.
End Doc.
Print Assumptions C23_C24_document_partial.

(** ** Consequences for regions *)
Lemma directs_unique : forall n d d', directs n d -> directs n d' -> d = d'.
Proof. intros n d d' H H'. apply directs_iff in H, H'. congruence. Qed.
Lemma directs_not_note : forall n d, directs n d -> ~ note_definition n.
Proof. intros n d (l & body & V & _) (name & N). congruence. Qed.
Lemma directs_not_trails : forall n d cs, directs n d -> ~ trails n cs.
Proof.
  intros n d cs H (_ & M & _). destruct M as [N|[_ N]]; [exact (directs_not_note _ _ H N)|exact (N d H)].
Qed.

Section Regions.
Variable U : Uni.
Variable o : Options.
Variable checks : bool.
Variable src : list str.
Variable ends_nl : bool.
Notation dtext := (document_text U o checks src ends_nl).

Lemma skip_blocks : forall pre cs out prev m hs t,
  Forall (fun n => ~ directs n DisableFile) pre -> dtext out prev m (pre ++ cs) hs t ->
  exists out' prev' m' hs' before t', t = before ++ t' /\ dtext out' prev' m' cs hs' t'.
Proof.
  induction pre as [|n pre IH]; intros cs out prev m hs t F T.
  - do 6 eexists. split; [|exact T]. instantiate (1 := []). reflexivity.
  - inversion F as [|? ? Fn F']; subst. cbn [app] in T. inversion T; subst; try (exfalso; apply Fn; assumption);
      match goal with H : document_text _ _ _ _ _ _ _ _ (pre ++ cs) _ _ |- _ =>
        destruct (IH _ _ _ _ _ _ F' H) as (a & b & c & d0 & before & t' & E & T') end.
    + exists a, b, c, d0, before, t'. auto.
    + exists a, b, c, d0, before, t'. auto.
    + exists a, b, c, d0, (chunk ++ before), t'. split; [subst; rewrite <- app_assoc; reflexivity|exact T'].
    + exists a, b, c, d0, (chunk ++ before), t'. split; [subst; rewrite <- app_assoc; reflexivity|exact T'].
    + exists a, b, c, d0, (chunk ++ before), t'. split; [subst; rewrite <- app_assoc; reflexivity|exact T'].
Qed.

Lemma governed_blocks : forall ns xs post out prev m hs t,
  (m = Region \/ (m = Section_ /\ Forall (fun n => forall l, node_value n = NHeading l -> 3 <= l) ns)
   \/ (m = NextBlock /\ List.length ns <= 1)) ->
  Forall2 (fun n x => spans (join [c_nl] src) (node_pos n) x) ns xs ->
  Forall (fun n => ~ note_definition n /\ forall d, ~ directs n d) ns ->
  (Forall (fun n => forall l, ~ html_literal n l) ns \/ Exists (fun n => ~ may_trail n) post) ->
  dtext out (Some prev) m (ns ++ post) hs t ->
  exists text after, t = text ++ after /\ verbatim_blocks U o checks (Some prev) ns xs text.
Proof.
  induction ns as [|n ns IH]; intros xs post out prev m hs t M S F P T.
  - inversion S; subst. exists [], t. split; [reflexivity|constructor].
  - inversion S as [|? x ? xs' Sx S']; subst. inversion F as [|? ? [Fn Fd] F']; subst.
    assert (P' : Forall (fun n => forall l, ~ html_literal n l) ns \/ Exists (fun n => ~ may_trail n) post).
    { destruct P as [P|P]; [left; inversion P; assumption|right; exact P]. }
    assert (NT : ~ trails n (ns ++ post)).
    { intros ((l & L) & _ & A). destruct P as [P|P].
      - inversion P; subst. eapply H1. exact L.
      - apply Forall_app in A. destruct A as [_ A]. rewrite Exists_exists in P. destruct P as (y & I & Y). rewrite Forall_forall in A. auto. }
    assert (Fr : frozen m n = true /\ (ns = [] \/ after_block m n = m)).
    { destruct M as [->|[[-> M]|[-> M]]]; cbn [frozen after_block].
      - auto.
      - assert (Z : frozen Section_ n = true).
        { inversion M as [|? ? M1 M2]; subst. unfold frozen. destruct (node_value n) as [] eqn:V; try reflexivity.
          specialize (M1 _ eq_refl). destruct level as [|[|[|?]]]; try lia; reflexivity. }
        cbn [frozen] in Z. rewrite Z. auto.
      - split; [reflexivity|]. left. cbn [List.length] in M. destruct ns; [reflexivity|cbn in M; lia]. }
    destruct Fr as [Fr Same].
    cbn [app] in T. inversion T; subst; try contradiction;
      try (exfalso; match goal with H : directs n _ |- _ => exact (Fd _ H) end).
    + match goal with H : source_of _ _ ?y |- _ => assert (X : y = x) by (apply H; exact Sx); subst y end.
      match goal with H : document_text _ _ _ _ _ _ _ _ (ns ++ post) _ _ |- _ => rename H into TT end.
      match goal with H : _ \/ (node_value n <> NHeading 2 /\ _) -> _ = [] |- _ => rename H into FL end.
      assert (R : exists text after, t0 = text ++ after /\ verbatim_blocks U o checks (Some n) ns xs' text).
      { destruct Same as [->|Same].
        - inversion S'; subst. exists [], t0. split; [reflexivity|constructor].
        - rewrite Same in TT. eapply IH; [|exact S'|exact F'|exact P'|exact TT].
          destruct M as [M|[[M1 M2]|[M1 M2]]]; [auto|right; left; split; [exact M1|inversion M2; assumption]|].
          right. right. split; [exact M1|]. cbn in M2. lia. }
      destruct R as (text & after & R & V). rewrite R. exists (fl ++ gap (Some prev) n ++ x ++ [c_nl] ++ text), after. split.
      * subst chunk. rewrite <- !app_assoc. reflexivity.
      * constructor; [assumption|intro Q; apply FL; right; exact Q|exact V].
    + exfalso. match goal with H : frozen m n = false \/ _ |- _ => destruct H as [Q|Q]; [congruence|exact (Q _ Sx)] end.
Qed.
End Regions.

Section Main.
Variable U : Uni.
Variable PN : list (str * str).
Variable ENT : str -> option str.
Variable o : Options.
Variable B : backend.
Variable src : list str.
Variable ends_nl : bool.
Variable checks : bool.
Hypothesis src_lines : src <> [] /\ Forall (fun l => ~ In c_nl l) src.

(** C23: the blocks that a directive disables are written as they stand in the
    source, in order; between them only the usual separation, and definitions
    before headings of level 2 and 3.  Missing from the full claim: directives
    and footnote definitions inside the region, trailing HTML blocks, and link
    definitions (see the refutations). *)
Theorem C23_region_partial : forall p pre d dir ns xs post s',
  forallb no_document (pre ++ d :: ns ++ post) = true ->
  serialize_root U PN ENT o B src ends_nl checks (Node NDocument p (pre ++ d :: ns ++ post)) = Ok s' ->
  Forall (fun n => ~ directs n DisableFile) pre ->
  directs d dir -> governs dir ns ->
  Forall2 (fun n x => spans (join [c_nl] src) (node_pos n) x) ns xs ->
  Forall (fun n => ~ note_definition n /\ forall d, ~ directs n d) ns ->
  (Forall (fun n => forall l, ~ html_literal n l) ns \/ Exists (fun n => ~ may_trail n) post) ->
  exists before text after,
    output s' = before ++ text ++ after /\ verbatim_blocks U o checks (Some d) ns xs text.
Proof.
  intros p pre d dir ns xs post s' D E F Dd G S N P.
  apply (C23_C24_document_partial _ _ _ _ _ _ _ _ src_lines _ _ _ D) in E.
  destruct (skip_blocks _ _ _ _ _ _ _ _ _ _ _ _ F E) as (out & prev & m & hs & before & t & O & T).
  assert (dir <> DisableFile) by (destruct dir; [discriminate|destruct G|discriminate..]).
  inversion T; subst; try (exfalso; eapply directs_not_note; eassumption);
    try (exfalso; eapply directs_not_trails; eassumption);
    try (exfalso; match goal with H : ordinary _ _ |- _ => destruct H as (_ & _ & H); exact (H _ Dd) end).
  - exfalso. apply H. eapply directs_unique; eassumption.
  - assert (d0 = dir) by (eapply directs_unique; eassumption). subst d0.
    match goal with H : document_text _ _ _ _ _ _ _ _ _ _ _ |- _ => apply (governed_blocks _ _ _ _ _ ns xs) in H; try assumption end.
    + match goal with H : exists text after, _ |- _ => destruct H as (text & after & -> & V) end.
      exists (before ++ chunk), text, after. split; [rewrite O, <- app_assoc; reflexivity|exact V].
    + destruct dir; try destruct G; cbn [after_directive governs] in *; auto.
Qed.

(** C24: after disable-file the output is the rest of the source. *)
Theorem C24_disable_file : forall p pre d l post s',
  forallb no_document (pre ++ d :: post) = true ->
  serialize_root U PN ENT o B src ends_nl checks (Node NDocument p (pre ++ d :: post)) = Ok s' ->
  Forall (fun n => ~ directs n DisableFile) pre ->
  directs d DisableFile -> html_literal d l ->
  let rest := skipn (end_line (node_pos d)) src in
  exists before l', end_core l l'
    /\ output s' = before ++ l'
         ++ match rest with [] => [] | _ => [c_nl] ++ join [c_nl] rest ++ (if ends_nl then [c_nl] else []) end.
Proof.
  intros p pre d l post s' D E F Dd L.
  apply (C23_C24_document_partial _ _ _ _ _ _ _ _ src_lines _ _ _ D) in E.
  destruct (skip_blocks _ _ _ _ _ _ _ _ _ _ _ _ F E) as (out & prev & m & hs & before & t & O & T).
  inversion T; subst; try (exfalso; eapply directs_not_note; eassumption);
    try (exfalso; eapply directs_not_trails; eassumption);
    try (exfalso; match goal with H : ordinary _ _ |- _ => destruct H as (_ & _ & H); exact (H _ Dd) end).
  - assert (l0 = l) by (unfold html_literal in *; congruence). subst l0. exists (before ++ fl), l'. split; [assumption|].
    cbv zeta. rewrite O, <- !app_assoc. do 3 f_equal.
    destruct (skipn (end_line (node_pos d)) src) eqn:K; [auto|].
    match goal with H : _ :: _ <> [] -> rest = _ |- _ => apply H; discriminate end.
  - exfalso. assert (d0 = DisableFile) by (eapply directs_unique; eassumption). congruence.
Qed.

(** C23: what a frozen block contains does not matter: two blocks at the same
    place and of the same heading level have the same effect. *)
Theorem C23_content_ignored : forall prev n n' a a' s x,
  node_pos n' = node_pos n -> heading_level n' = heading_level n ->
  frozen (mode_of (skip s)) n = true -> extract_source src (node_pos n) = Ok (Some x) ->
  document_block U o src checks prev n a s = document_block U o src checks prev n' a' s.
Proof.
  intros prev n n' a a' s x P H F X. unfold document_block. cbv zeta. rewrite P, H, X.
  assert (S : block_separator prev n' = block_separator prev n) by (unfold block_separator; rewrite H; reflexivity). rewrite S.
  assert (I : is_section_heading n' = is_section_heading n).
  { unfold is_section_heading, heading_level in *. destruct (node_value n'), (node_value n); congruence. } rewrite I.
  unfold seqa.
  match goal with |- rbind ?y _ = _ => destruct y as [m|] eqn:E end; [|reflexivity]. cbn [rbind].
  assert (K : skip m = skip s).
  { apply heading_flush with (U := U) (o := o) (checks := checks) (prev := prev) in E. destruct E as (fl & _ & _ & K & _). exact K. }
  unfold emit, upd, get. cbn [rbind skip set_output]. rewrite K. destruct (skip s) eqn:M; try reflexivity.
  - discriminate F.
  - rewrite section_frozen in F. cbn [mode_of] in F. destruct (is_section_heading n); [discriminate|reflexivity].
Qed.
End Main.
Print Assumptions C23_region_partial.

(** C24 for a whole run: when the directive's last line ends at the newline
    after [a], the output ends with that newline and the rest of the input,
    character by character, final newline or none included.  (Carriage returns
    are left out: CR LF becomes LF.) *)
Definition newlines (s : str) : nat := List.length (filter (N.eqb c_nl) s).

Lemma ends_nl_last : forall s x, ends_with [c_nl] (s ++ [x]) = ceq c_nl x.
Proof.
  intros s x. unfold ends_with, strip_suffix. rewrite rev_app_distr. cbn [rev app strip_prefix]. destruct (ceq c_nl x); reflexivity.
Qed.
Lemma ends_nl_app : forall a b, b <> [] -> ends_with [c_nl] (a ++ b) = ends_with [c_nl] b.
Proof.
  intros a b H. destruct (exists_last H) as (b' & x & ->). rewrite app_assoc, !ends_nl_last. reflexivity.
Qed.
Lemma skip_lines : forall a cur b, skipn (S (newlines a)) (lines_aux cur (a ++ c_nl :: b)) = lines b.
Proof.
  unfold newlines. induction a as [|x a IH]; intros cur b; cbn [app filter lines_aux].
  - reflexivity.
  - unfold ceq. rewrite (N.eqb_sym x c_nl). destruct (N.eqb c_nl x).
    + cbn [List.length]. change (skipn (S (List.length (filter (N.eqb c_nl) a))) (lines_aux [] (a ++ c_nl :: b)) = lines b). apply IH.
    + apply IH.
Qed.
Lemma strip_cr_id : forall l, ~ In c_cr l -> strip_cr (rev l) = rev l.
Proof.
  intros l H. unfold strip_cr. rewrite ?rev_involutive. destruct l as [|x l]; [reflexivity|].
  destruct (ceq x c_cr) eqn:E; [|reflexivity]. apply N.eqb_eq in E. subst x. exfalso. apply H. left. reflexivity.
Qed.
Lemma lines_some : forall s cur, cur <> [] \/ s <> [] -> lines_aux cur s <> [].
Proof.
  induction s as [|z s IH]; intros cur [H|H]; try congruence; cbn [lines_aux].
  - destruct cur; [congruence|discriminate].
  - destruct (ceq z c_nl); [discriminate|]. apply IH. left. discriminate.
  - destruct (ceq z c_nl); [discriminate|]. apply IH. left. discriminate.
Qed.
Lemma lines_back : forall s cur, ~ In c_cr s -> ~ In c_cr cur -> lines_aux cur s <> [] ->
  join [c_nl] (lines_aux cur s) ++ (if ends_with [c_nl] s then [c_nl] else []) = rev cur ++ s.
Proof.
  induction s as [|x s IH]; intros cur C1 C2 NE; cbn [lines_aux] in *.
  - destruct cur as [|y cur]; [elim NE; reflexivity|]. cbn [is_nil]. change (ends_with [c_nl] []) with false. cbn [join]. reflexivity.
  - assert (Cs : ~ In c_cr s) by (intro; apply C1; right; assumption).
    destruct (ceq x c_nl) eqn:E.
    + apply N.eqb_eq in E. subst x. rewrite strip_cr_id by exact C2.
      destruct s as [|y s].
      * cbn [lines_aux is_nil join]. change (ends_with [c_nl] [c_nl]) with true. reflexivity.
      * assert (NE' : lines_aux [] (y :: s) <> []).
        { apply lines_some. right. discriminate. }
        specialize (IH [] Cs (fun f => f) NE'). cbn [rev app] in IH.
        change (c_nl :: y :: s) with ([c_nl] ++ (y :: s)). rewrite ends_nl_app by discriminate.
        destruct (lines_aux [] (y :: s)) as [|l0 ls] eqn:L; [congruence|].
        change (join [c_nl] (rev cur :: l0 :: ls)) with (rev cur ++ [c_nl] ++ join [c_nl] (l0 :: ls)).
        rewrite <- !app_assoc. f_equal. f_equal. exact IH.
    + assert (Cc : ~ In c_cr (x :: cur)).
      { intros [->|H]; [apply C1; left; reflexivity|contradiction]. }
      specialize (IH (x :: cur) Cs Cc NE). cbn [rev] in IH. rewrite <- app_assoc in IH. cbn [app] in IH. rewrite <- IH. f_equal.
      destruct s as [|y s].
      * change [x] with ([] ++ [x]). rewrite (ends_nl_last [] x). unfold ceq in *. rewrite N.eqb_sym, E. reflexivity.
      * change (x :: y :: s) with ([x] ++ (y :: s)). rewrite ends_nl_app by discriminate. reflexivity.
Qed.

Theorem C24_format : forall U PN ENT parse o B checks input out ws p pre d l post a b,
  parse input = Node NDocument p (pre ++ d :: post) -> forallb no_document (pre ++ d :: post) = true ->
  format_with_warnings U PN ENT parse o B checks input = Ok (out, ws) ->
  Forall (fun n => ~ directs n DisableFile) pre -> directs d DisableFile -> html_literal d l ->
  input = a ++ [c_nl] ++ b -> newlines a + 1 = end_line (node_pos d) -> b <> [] -> ~ In c_cr input ->
  exists before l', end_core l l' /\ out = before ++ l' ++ [c_nl] ++ b.
Proof.
  intros U PN ENT parse o B checks input out ws p pre d l post a b P D F N Dd L I C Nb Cr.
  unfold format_with_warnings in F. rewrite P in F.
  destruct (is_nil input) eqn:Ni; [destruct input; [subst; destruct a; discriminate|discriminate]|].
  destruct (serialize_root U PN ENT o B (lines input) (ends_with_newline input) checks (Node NDocument p (pre ++ d :: post))) as [s|] eqn:R; [|discriminate].
  injection F as <- <-.
  assert (SL : lines input <> [] /\ Forall (fun l => ~ In c_nl l) (lines input)).
  { split.
    - rewrite I. cbn [app]. intro H. pose proof (skip_lines a [] b) as K. unfold lines in H. rewrite H in K.
      destruct b as [|y b]; [congruence|]. clear - K. cbn [skipn] in K. symmetry in K. revert K.
      apply lines_some. right. discriminate.
    - eapply Forall_impl; [|apply lines_forall]. cbn beta. intros x H K. rewrite Forall_forall in H. exact (H _ K eq_refl). }
  destruct (C24_disable_file U PN ENT o B (lines input) (ends_with_newline input) checks SL p pre d l post s D R N Dd L) as (before & l' & E & O).
  exists before, l'. split; [exact E|]. rewrite O. f_equal. f_equal.
  rewrite I in Cr. cbn [app] in Cr.
  assert (K : skipn (end_line (node_pos d)) (lines input) = lines b).
  { rewrite I, <- C, Nat.add_1_r. apply skip_lines. }
  rewrite K.
  assert (J : join [c_nl] (lines b) ++ (if ends_with [c_nl] b then [c_nl] else []) = b).
  { apply (lines_back b []).
    - intro H. apply Cr. apply in_or_app. right. right. exact H.
    - intros [].
    - apply lines_some. right. exact Nb. }
  unfold ends_with_newline. rewrite I. rewrite (app_assoc a [c_nl] b), ends_nl_app by exact Nb.
  destruct (lines b) as [|l0 ls] eqn:Lb.
  - exfalso. cbn [join app] in J. destruct (ends_with [c_nl] b) eqn:Eb; [|congruence].
    rewrite <- J in Lb. discriminate Lb.
  - f_equal. exact J.
Qed.
Print Assumptions C24_format.
Print Assumptions C24_disable_file.
Print Assumptions C23_content_ignored.

(** ** Examples and refutations *)
Definition html23 (l : nat) (t : str) : node := Node (NHtmlBlock (t ++ [c_nl])) (mkPos l 1 l (byte_len t)) [].
Definition para23 (l : nat) (len : nat) (t : str) : node :=
  Node NParagraph (mkPos l 1 l len) [Node (NText t) (mkPos l 1 l len) []].
Definition dis23 : str := lit "<!-- hongdown-disable -->".
Definition en23 : str := lit "<!-- hongdown-enable -->".
Definition next23 : str := lit "<!-- hongdown-disable-next-line -->".
Definition file23 : str := lit "<!-- hongdown-disable-file -->".
Definition run23 (src : list str) (cs : list node) : res st :=
  serialize_root uni_ascii [] (fun _ => None) default_options (Wasm None) src true true (Node NDocument (mkPos 1 1 (List.length src) 1) cs).
Definition src23 : list str := [dis23; []; lit "a   b"; []; en23; []; lit "c   d"].
Example C23_witness :
  match run23 src23 [html23 1 dis23; para23 3 5 (lit "a b"); html23 5 en23; para23 7 5 (lit "c d")] with
  | Ok s => output s = dis23 ++ [c_nl; c_nl] ++ lit "a   b" ++ [c_nl; c_nl] ++ en23 ++ [c_nl; c_nl] ++ lit "c d" ++ [c_nl]
  | Panic => False
  end.
Proof. vm_compute. reflexivity. Qed.

(** After disable-file the rest keeps its spaces and has no final newline. *)
Example C24_format_witness :
  format_with_warnings uni_ascii [] (fun _ => None)
    (fun _ => Node NDocument (mkPos 1 1 3 5) [html23 1 file23; para23 3 5 (lit "a b")]) default_options (Wasm None) true
    (file23 ++ [c_nl; c_nl] ++ lit "a   b")
  = Ok (file23 ++ [c_nl; c_nl] ++ lit "a   b", []).
Proof. vm_compute. reflexivity. Qed.

(** The full claim is false.  A disable-next-line inside the region ends it. *)
Definition nested23 : list str := [dis23; []; next23; []; lit "a   b"; []; lit "c   d"; []; en23].
Theorem C23_nested_directive_refuted : exists src cs n x s,
  in_region cs n /\ spans (join [c_nl] src) (node_pos n) x /\ run23 src cs = Ok s /\ contains_sub x (output s) = false.
Proof.
  set (n := para23 7 5 (lit "c d")).
  exists nested23, [html23 1 dis23; html23 3 next23; para23 5 5 (lit "a b"); n; html23 9 en23], n, (lit "c   d").
  eexists. split; [|split; [|split; [vm_compute; reflexivity|]]].
  - exists [], (html23 1 dis23), [html23 3 next23; para23 5 5 (lit "a b")], [], (html23 9 en23), [].
    split; [reflexivity|]. split; [apply directs_iff; vm_compute; reflexivity|]. split; [apply directs_iff; vm_compute; reflexivity|].
    split; [|constructor]. repeat constructor; intro H; apply directs_iff in H; vm_compute in H; discriminate.
  - exists (join [c_nl] (firstn 6 nested23) ++ [c_nl]), ([c_nl; c_nl] ++ en23).
    split; [vm_compute; reflexivity|]. split; [cbn; lia|]. split; vm_compute; reflexivity.
  - vm_compute. reflexivity.
Qed.
Print Assumptions C23_nested_directive_refuted.

(** A footnote definition inside the region is taken out and formatted. *)
Definition note_src23 : list str := [lit "x[^1]"; []; dis23; []; lit "[^1]:   a   b"; []; en23].
Theorem C23_footnote_refuted : exists src cs n x s,
  in_region cs n /\ spans (join [c_nl] src) (node_pos n) x /\ run23 src cs = Ok s /\ contains_sub x (output s) = false.
Proof.
  set (n := Node (NFootnoteDefinition (lit "1")) (mkPos 5 1 5 13) [para23 5 13 (lit "a b")]).
  exists note_src23, [Node NParagraph (mkPos 1 1 1 5) [Node (NText (lit "x")) (mkPos 1 1 1 1) []; Node (NFootnoteReference (lit "1")) (mkPos 1 2 1 5) []];
    html23 3 dis23; n; html23 7 en23], n, (lit "[^1]:   a   b").
  eexists. split; [|split; [|split; [vm_compute; reflexivity|]]].
  - eexists [_], (html23 3 dis23), [], [], (html23 7 en23), [].
    split; [reflexivity|]. split; [apply directs_iff; vm_compute; reflexivity|]. split; [apply directs_iff; vm_compute; reflexivity|].
    split; [constructor|]. repeat constructor; intro H; apply directs_iff in H; vm_compute in H; discriminate.
  - exists (join [c_nl] (firstn 4 note_src23) ++ [c_nl]), ([c_nl; c_nl] ++ en23).
    split; [vm_compute; reflexivity|]. split; [cbn; lia|]. split; vm_compute; reflexivity.
  - vm_compute. reflexivity.
Qed.
Print Assumptions C23_footnote_refuted.

(** A link definition inside the region is lost, although its link is written. *)
Definition ref_src23 : list str := [dis23; []; lit "[a]"; []; lit "[a]: http://u"; []; en23].
Theorem C23_definition_refuted : exists src cs n line s,
  in_region cs n /\ (exists url title, node_children n = [Node (NLink url title) (node_pos n) [Node (NText (lit "a")) (mkPos 3 2 3 2) []]]
                      /\ line = lit "[a]: " ++ url /\ title = [])
  /\ (exists d e l, nth_error cs 0 = Some d /\ nth_error cs 2 = Some e /\ directs d Disable /\ directs e Enable
        /\ end_line (node_pos d) < l < start_line (node_pos e) /\ nth_error src (l - 1) = Some line)
  /\ run23 src cs = Ok s /\ contains_sub line (output s) = false /\ contains_sub (lit "[a]") (output s) = true.
Proof.
  set (n := Node NParagraph (mkPos 3 1 3 3) [Node (NLink (lit "http://u") []) (mkPos 3 1 3 3) [Node (NText (lit "a")) (mkPos 3 2 3 2) []]]).
  exists ref_src23, [html23 1 dis23; n; html23 7 en23], n, (lit "[a]: http://u").
  eexists. split; [|split; [|split; [|split; [vm_compute; reflexivity|split]]]].
  - exists [], (html23 1 dis23), [], [], (html23 7 en23), [].
    split; [reflexivity|]. split; [apply directs_iff; vm_compute; reflexivity|]. split; [apply directs_iff; vm_compute; reflexivity|].
    split; constructor.
  - exists (lit "http://u"), []. repeat split.
  - exists (html23 1 dis23), (html23 7 en23), 5. split; [reflexivity|]. split; [reflexivity|].
    split; [apply directs_iff; vm_compute; reflexivity|]. split; [apply directs_iff; vm_compute; reflexivity|].
    split; [cbn; lia|vm_compute; reflexivity].
  - vm_compute. reflexivity.
  - vm_compute. reflexivity.
Qed.
Print Assumptions C23_definition_refuted.

Example C24_witness :
  let src := [lit "a   b"; []; file23; lit "c   d"; []; lit "* x"] in
  match run23 src [para23 1 5 (lit "a b"); html23 3 file23; para23 4 5 (lit "c d")] with
  | Ok s => output s = lit "a b" ++ [c_nl] ++ file23 ++ [c_nl] ++ lit "c   d" ++ [c_nl; c_nl] ++ lit "* x" ++ [c_nl]
  | Panic => False
  end.
Proof. vm_compute. reflexivity. Qed.
(** A directive on the last line loses the final newline. *)
Example C24_last_line :
  match run23 [lit "a"; []; file23] [para23 1 1 (lit "a"); html23 3 file23] with
  | Ok s => output s = lit "a" ++ [c_nl] ++ file23
  | Panic => False
  end.
Proof. vm_compute. reflexivity. Qed.
