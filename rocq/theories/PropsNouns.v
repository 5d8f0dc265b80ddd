(** C65: nouns named in directives count like configured ones. *)
From Coq Require Import Bool Arith NArith Lia ZifyBool ZifyNat ZifyN String List.
From Verif Require Import Base BaseFacts OptsModel WrapModel CodeModel TableModel HeadingModel AstModel StateModel
  InlineModel WarnModel SerModel SpecState SpecContext SpecDoc StateProof PropsState SerFacts PropsOrder SerBuilt OutputProof DocProof SpecNouns PropsDoc.
Import ListNotations.

Section Doc.
Variable U : Uni.
Variable PN : list (str * str).
Variable ENT : str -> option str.
Variable o : Options.
Variable B : backend.
Variable src : list str.
Variable ends_nl : bool.
Variable checks : bool.
Hypothesis src_lines : src <> [] /\ Forall (fun l => ~ In c_nl l) src.
Notation ser := (serialize U PN ENT o B src ends_nl checks).
Notation dtext := (nouned U PN ENT o B checks src ends_nl).


Notation named s := (proper_nouns s, common_nouns s).
Lemma flush_named : forall before s s', flush_all U o checks before s = Ok s' ->
  exists fl, definitions U o checks fl /\ output s' = output s ++ fl /\ skip s' = skip s /\ named s' = named s.
Proof.
  intros before s s' E. destruct (flush_all_ok U o checks _ _ _ E) as (fl & D & O & S). exists fl. repeat (split; [assumption|]).
  unfold flush_all in E. apply seqa_ok in E. destruct E as (m & E1 & E). apply seqa_ok in E. destruct E as (m2 & E2 & E3).
  apply flush_footnotes_ok in E1. destruct E1 as (texts & F & O1 & E1). decompose [and] E1. clear E1.
  destruct (flush_references_eq m) as (m2' & E2' & O2 & R2). rewrite E2' in E2. injection E2 as <-. decompose [and] R2. clear R2.
  destruct (flush_footnote_references_eq before m2') as (m3 & E3' & O3 & R3). rewrite E3' in E3. injection E3 as <-. decompose [and] R3. clear R3.
  f_equal; congruence.
Qed.
Lemma events_named : forall l s s', all (map do_event l) s = Ok s' -> named s' = named s.
Proof.
  induction l as [|e l IH]; intros s s' E; [injection E as <-; reflexivity|]. cbn [map] in E. rewrite all_cons in E.
  apply seqa_ok in E. destruct E as (m & E1 & E2). rewrite (IH _ _ E2).
  destruct e; injection E1 as <-; cbv zeta; [destruct (f_collecting (footnotes s))|]; reflexivity.
Qed.
Lemma events_ok : forall l s, exists s', all (map do_event l) s = Ok s'.
Proof.
  induction l as [|e l IH]; intro s; [exists s; reflexivity|]. cbn [map]. rewrite all_cons. unfold seqa.
  destruct e; cbn [do_event]; unfold upd; cbn [rbind]; apply IH.
Qed.

(** The text of a heading does not depend on the nouns. *)
Lemma text_nouns : forall p c, collect_text U ENT (with_nouns o p c) src = collect_text U ENT o src.
Proof. intros p c. destruct o. reflexivity. Qed.
Lemma heading_alone : forall next n l s s', node_value n = NHeading l -> ser next n s = Ok s' ->
  exists x, output s' = output s ++ x /\ alone U PN ENT o B checks src ends_nl (named s) n x.
Proof.
  intros next n l s s' V E. destruct n as [v p cs]. cbn [node_value] in V. subst v. cbn [serialize] in E. cbv zeta in E.
  unfold heading, inline in E. destruct (collect_text U ENT o src (Node (NHeading l) p cs)) as [[text evs]|] eqn:T; [|discriminate E].
  apply seqa_ok in E. destruct E as (m & E1 & E2). unfold get in E2. injection E2 as <-.
  pose proof (events_output _ _ _ E1) as O. pose proof (events_named _ _ _ E1) as N. injection N as N1 N2.
  eexists. split; [cbn [output set_output]; rewrite O; reflexivity|].
  destruct (events_ok evs init_st) as [m' E1']. pose proof (events_output _ _ _ E1') as O'. pose proof (events_named _ _ _ E1') as N'. injection N' as N1' N2'.
  exists (set_output (output m' ++ heading_output U PN o (proper_nouns m) (common_nouns m) l text) m'). split.
  - unfold serialize_root. cbn [serialize]. cbv zeta. unfold heading, inline. rewrite text_nouns, T. unfold seqa. rewrite E1'. cbn [rbind].
    unfold get, emit, upd. rewrite N1', N2', N1, N2. unfold heading_output. cbn [fst snd]. rewrite !app_nil_r. reflexivity.
  - cbn [output set_output]. rewrite O'. reflexivity.
Qed.

Lemma heading_flush : forall (prev : option node) n s s',
  (match heading_level n, prev with
   | Some 2, Some _ | Some 3, Some _ => flush_all U o checks (Some (start_line (node_pos n)))
   | _, _ => nop
   end) s = Ok s' ->
  exists fl, definitions U o checks fl /\ output s' = output s ++ fl /\ skip s' = skip s /\ named s' = named s
    /\ (prev = None \/ (node_value n <> NHeading 2 /\ node_value n <> NHeading 3) -> fl = []).
Proof.
  intros prev n s s' E.
  assert (N : nop s = Ok s' -> exists fl, definitions U o checks fl /\ output s' = output s ++ fl /\ skip s' = skip s /\ named s' = named s
    /\ (prev = None \/ (node_value n <> NHeading 2 /\ node_value n <> NHeading 3) -> fl = [])).
  { intro Q. injection Q as <-. exists []. split; [apply definitions_nil|]. rewrite app_nil_r. auto 10. }
  unfold heading_level in E. destruct (node_value n) eqn:V; try (apply N; exact E).
  destruct level as [|[|[|[|?]]]]; try (apply N; exact E); (destruct prev; [|apply N; exact E]);
    apply flush_named in E; destruct E as (fl & D & O & S & Nm); exists fl; (split; [exact D|]); (split; [exact O|]);
    (split; [exact S|]); (split; [exact Nm|]); (intros [Q|[Q1 Q2]]; [discriminate|congruence]).
Qed.

(** One block. *)
Lemma block_run : forall prev n next s s', no_document n = true ->
  document_block U o src checks prev n (ser next n) s = Ok s' ->
  exists fl x, definitions U o checks fl
    /\ (prev = None \/ (node_value n <> NHeading 2 /\ node_value n <> NHeading 3) -> fl = [])
    /\ output s' = output s ++ fl ++ gap prev n ++ x
    /\ mode_of (skip s') = after_block (mode_of (skip s)) n /\ named s' = named s
    /\ ((frozen (mode_of (skip s)) n = true /\ exists y, source_of src n y /\ x = y ++ [c_nl])
        \/ ((frozen (mode_of (skip s)) n = false \/ forall y, ~ spans (join [c_nl] src) (node_pos n) y)
          /\ forall l, node_value n = NHeading l -> alone U PN ENT o B checks src ends_nl (named s) n x)).
Proof.
  intros prev n next s s' D E. unfold document_block in E. cbv zeta in E. apply seqa_ok in E. destruct E as (m & E1 & E).
  apply heading_flush in E1. destruct E1 as (fl & F & O & S & Nm & FN). exists fl.
  apply seqa_ok in E. destruct E as (m2 & E2 & E3). injection E2 as <-. unfold get in E3.
  cbn [skip set_output] in E3. rewrite S in E3. rewrite gap_eq in E3.
  set (m2 := set_output (output m ++ gap prev n) m) in *.
  assert (M2 : output m2 = output s ++ fl ++ gap prev n) by (cbn; rewrite O, <- app_assoc; reflexivity).
  assert (S2 : skip m2 = skip s) by exact S.
  assert (N2 : named m2 = named s) by exact Nm.
  (* the formatted case *)
  assert (Fmt : forall m3, output m3 = output m2 -> named m3 = named m2 -> ser next n m3 = Ok s' ->
            exists x, output s' = output s ++ fl ++ gap prev n ++ x /\ skip s' = skip m3 /\ named s' = named s
              /\ forall l, node_value n = NHeading l -> alone U PN ENT o B checks src ends_nl (named s) n x).
  { intros m3 Q Q2 E. pose proof (serialize_inner _ _ _ _ _ _ _ _ _ _ _ _ D E) as [].
    pose proof (serialize_grows _ _ _ _ _ _ _ _ _ _ _ _ E) as [[x G] _ _ _]. exists x.
    split; [rewrite G, Q, M2, <- !app_assoc; reflexivity|]. split; [exact in_skip|]. split; [rewrite in_proper, in_common; congruence|].
    intros l V. destruct (heading_alone _ _ _ _ _ V E) as (y & Y1 & Y2). rewrite G in Y1. apply app_inv_head in Y1. subst y.
    rewrite <- N2, <- Q2. exact Y2. }
  (* the verbatim case *)
  assert (Ver : forall m3, output m3 = output m2 -> named m3 = named m2 ->
    (match extract_source src (node_pos n) with
     | Ok (Some source) => emit (source ++ [c_nl])
     | Ok None => ser next n
     | Panic => panic end) m3 = Ok s' ->
    exists x, output s' = output s ++ fl ++ gap prev n ++ x /\ skip s' = skip m3 /\ named s' = named s
      /\ ((exists y, source_of src n y /\ x = y ++ [c_nl])
          \/ ((forall y, ~ spans (join [c_nl] src) (node_pos n) y)
              /\ forall l, node_value n = NHeading l -> alone U PN ENT o B checks src ends_nl (named s) n x))).
  { intros m3 Q Q2 E. destruct (extract_source src (node_pos n)) as [[y|]|] eqn:X; [| |discriminate].
    - injection E as <-. exists (y ++ [c_nl]). split; [cbn; rewrite Q, M2, <- !app_assoc; reflexivity|]. split; [reflexivity|]. split; [cbn; congruence|].
      left. exists y. split; [|reflexivity]. intros z Z. apply (C32_exact _ _ _ (proj1 src_lines) (proj2 src_lines)) in Z. congruence.
    - destruct (Fmt _ Q Q2 E) as (x & G1 & G2 & G3 & G4). exists x. split; [exact G1|]. split; [exact G2|]. split; [exact G3|]. right. split; [|exact G4].
      intros z Z. apply (C32_exact _ _ _ (proj1 src_lines) (proj2 src_lines)) in Z. congruence. }
  destruct (skip s) eqn:K; cbn [mode_of] in *.
  - destruct (Fmt m2 eq_refl eq_refl E3) as (x & G1 & G2 & G4 & G5). exists x. rewrite G2, S2. cbn [mode_of frozen after_block]. auto 15.
  - apply seqa_ok in E3. destruct E3 as (m3 & E3 & E4). injection E3 as <-.
    destruct (Ver (set_skip SkipNone m2) eq_refl eq_refl E4) as (x & G1 & G2 & G4 & G3). exists x. rewrite G2. cbn [skip set_skip mode_of frozen after_block].
    repeat (split; [solve [auto]|]). destruct G3 as [G3|[G3 G5]]; auto.
  - unfold after_block. rewrite section_frozen. destruct (is_section_heading n) eqn:H.
    + apply seqa_ok in E3. destruct E3 as (m3 & E3 & E4). injection E3 as <-.
      destruct (Fmt (set_skip SkipNone m2) eq_refl eq_refl E4) as (x & G1 & G2 & G4 & G5). exists x. rewrite G2. cbn [skip set_skip mode_of negb]. auto 15.
    + destruct (Ver m2 eq_refl eq_refl E3) as (x & G1 & G2 & G4 & G3). exists x. rewrite G2, S2. cbn [mode_of negb].
      repeat (split; [solve [auto]|]). destruct G3 as [G3|[G3 G5]]; auto.
  - destruct (Ver m2 eq_refl eq_refl E3) as (x & G1 & G2 & G4 & G3). exists x. rewrite G2, S2. cbn [mode_of frozen after_block].
    repeat (split; [solve [auto]|]). destruct G3 as [G3|[G3 G5]]; auto.
Qed.

Lemma directive_run : forall prev n l d s s', d <> DisableFile ->
  directive_act U o checks prev n l d s = Ok s' ->
  exists fl, definitions U o checks fl
    /\ (d <> Disable -> d <> DisableNextLine -> d <> DisableNextSection -> fl = [])
    /\ output s' = output s ++ fl ++ match prev with Some _ => [c_nl] | None => [] end ++ l
    /\ mode_of (skip s') = after_directive (mode_of (skip s)) d
    /\ named s' = named_after (named s) d.
Proof.
  intros prev n l d s s' N E. unfold directive_act in E. cbv zeta in E.
  destruct d; try congruence;
    try (apply seqa_ok in E; destruct E as (m & E1 & E); apply flush_named in E1; destruct E1 as (fl & F & O & S & Nm);
         apply seqa_ok in E; destruct E as (m2 & E2 & E3); injection E2 as <-; injection E3 as <-;
         exists fl; split; [exact F|]; split; [congruence|]; cbn; rewrite O, <- !app_assoc; rewrite Nm; auto);
    (apply seqa_ok in E; destruct E as (m2 & E2 & E3); injection E2 as <-; injection E3 as <-;
     exists []; split; [apply definitions_nil|]; auto).
Qed.

(** The loop over the remaining children [cs] of [done ++ cs]. *)
Lemma loop_run : forall cs done prev s s',
  forallb no_document cs = true ->
  let ts := find_trailing_html_blocks (done ++ cs) in
  document_loop U o src ends_nl checks (ts - List.length done) prev (combine cs (with_next ser cs))
    (flush_all U o checks None ;; output_trailing true (skipn ts (done ++ cs))) s = Ok s' ->
  exists t, dtext (named s) (output s) prev (mode_of (skip s)) cs (htmls (skipn ts done)) t /\ output s' = output s ++ t.
Proof.
  induction cs as [|n cs IH]; intros done prev s s' D ts E.
  - cbn [combine document_loop with_next] in E. rewrite app_nil_r in *. apply seqa_ok in E. destruct E as (m & E1 & E2).
    apply flush_all_ok in E1. destruct E1 as (fl & F & O & _). apply output_trailing_first in E2.
    eexists. split; [|rewrite E2, O, <- app_assoc; reflexivity]. apply nd_end; [exact F|..].
    + intros ->. reflexivity.
    + intro H. apply is_nil_false in H. rewrite H. apply blank_before_separates.
  - cbn [with_next combine document_loop] in E. cbn [forallb] in D. apply andb_true_iff in D. destruct D as [Dn D].
    assert (Next : forall prev' s1, document_loop U o src ends_nl checks (ts - List.length done - 1) prev' (combine cs (with_next ser cs))
       (flush_all U o checks None ;; output_trailing true (skipn ts (done ++ n :: cs))) s1 = Ok s' ->
       exists t, dtext (named s1) (output s1) prev' (mode_of (skip s1)) cs (htmls (skipn ts (done ++ [n]))) t /\ output s' = output s1 ++ t).
    { intros prev' s1 R. specialize (IH (done ++ [n]) prev' s1 s' D). cbv zeta in IH.
      rewrite <- app_assoc in IH. cbn [app] in IH. fold ts in IH. apply IH.
      rewrite app_length. cbn [List.length]. replace (ts - (List.length done + 1)) with (ts - List.length done - 1) by lia. exact R. }
    assert (HN : is_html_block n = false -> htmls (skipn ts (done ++ [n])) = htmls (skipn ts done)).
    { intro H. rewrite skipn_app. unfold htmls. rewrite flat_map_app. rewrite <- app_nil_r. f_equal.
      destruct (ts - List.length done) as [|k]; [|destruct k; reflexivity]. cbn. unfold is_html_block in H.
      destruct (node_value n); try reflexivity. discriminate. }
    assert (HL : ts - List.length done <> 0 -> htmls (skipn ts (done ++ [n])) = htmls (skipn ts done)).
    { intro H. rewrite skipn_app. destruct (ts - List.length done) as [|k]; [congruence|]. destruct k; cbn [skipn]; rewrite app_nil_r; reflexivity. }
    destruct ((ts - List.length done =? 0) && is_html_block n) eqn:Def.
    + apply andb_true_iff in Def. destruct Def as [T H]. apply Nat.eqb_eq in T.
      destruct (Next _ _ E) as (t & X & O). exists t. split; [|exact O].
      assert (TR : trails n cs) by (apply (trails_iff done n cs H); exact T).
      destruct (TR) as [[l L] _]. eapply nd_trailing; [exact TR|exact L|].
      replace (htmls (skipn ts done) ++ [l]) with (htmls (skipn ts (done ++ [n]))); [exact X|].
      rewrite skipn_app, T. unfold htmls. rewrite flat_map_app. cbn [skipn flat_map]. rewrite L. reflexivity.
    + assert (NT : ~ trails n cs).
      { intro TR. assert (H : is_html_block n = true) by (destruct TR as [[l L] _]; unfold is_html_block; rewrite L; reflexivity).
        apply (trails_iff done n cs H) in TR. fold ts in TR. rewrite H, TR in Def. discriminate. }
      destruct (is_footnote_def n) eqn:FD.
      * destruct (Next _ _ E) as (t & X & O). exists t. split; [|exact O]. apply nd_note; [apply note_iff; exact FD|].
        rewrite <- HN; [exact X|]. unfold is_footnote_def in FD. unfold is_html_block. destruct (node_value n); congruence.
      * (* not deferred *)
        assert (HS : htmls (skipn ts (done ++ [n])) = htmls (skipn ts done)).
        { destruct (is_html_block n) eqn:H; [|apply HN; reflexivity]. apply HL. rewrite andb_true_r in Def. apply Nat.eqb_neq in Def. exact Def. }
        assert (ND : ~ note_definition n) by (intro Q; apply note_iff in Q; congruence).
        assert (Ord : directive_of n = None -> ordinary n cs).
        { intro Q. split; [exact ND|]. split; [exact NT|]. intros d C. apply directs_iff in C. congruence. }
        assert (Blk : directive_of n = None ->
          (document_block U o src checks prev n (ser (hd_error cs) n) ;;
           document_loop U o src ends_nl checks (ts - List.length done - 1) (Some n) (combine cs (with_next ser cs))
             (flush_all U o checks None ;; output_trailing true (skipn ts (done ++ n :: cs)))) s = Ok s' ->
          exists t, dtext (named s) (output s) prev (mode_of (skip s)) (n :: cs) (htmls (skipn ts done)) t /\ output s' = output s ++ t).
        { intros Q R. apply seqa_ok in R. destruct R as (m & R1 & R2). apply block_run in R1; [|exact Dn].
          destruct R1 as (fl & x & F & FN & O & M & Nm & C). destruct (Next _ _ R2) as (t & X & O2).
          rewrite HS, M, O, Nm in X. destruct C as [[Fr (y & Y1 & ->)]|[C CA]].
          - eexists. split; [|rewrite O2, O, <- app_assoc; reflexivity].
            eapply nd_frozen; [apply Ord; exact Q|exact Fr|exact F|exact FN|exact Y1|exact X].
          - eexists. split; [|rewrite O2, O, <- app_assoc; reflexivity].
            eapply nd_formatted; [apply Ord; exact Q|exact C|exact F|exact FN|exact CA|exact X]. }
        destruct (directive_of n) as [d|] eqn:Q.
        -- assert (DD : directs n d) by (apply directs_iff; exact Q).
           destruct (node_value n) eqn:V; try (unfold directive_of in Q; rewrite V in Q; discriminate Q).
           assert (DA : d <> DisableFile -> (directive_act U o checks prev n literal d ;;
             document_loop U o src ends_nl checks (ts - List.length done - 1) (Some n) (combine cs (with_next ser cs))
               (flush_all U o checks None ;; output_trailing true (skipn ts (done ++ n :: cs)))) s = Ok s' ->
             exists t, dtext (named s) (output s) prev (mode_of (skip s)) (n :: cs) (htmls (skipn ts done)) t /\ output s' = output s ++ t).
           { intros ND2 R. apply seqa_ok in R. destruct R as (m & R1 & R2). apply directive_run in R1; [|exact ND2].
             destruct R1 as (fl & F & FN & O & M & Nm). destruct (Next _ _ R2) as (t & X & O2). rewrite HS, M, O, Nm in X.
             eexists. split; [|rewrite O2, O, <- app_assoc; reflexivity].
             eapply nd_directive; [exact DD|exact ND2|exact V|exact F|exact FN|exact X]. }
           destruct d; try (apply DA; [discriminate|exact E]).
           unfold disable_file in E. apply seqa_ok in E. destruct E as (m & E1 & E). apply flush_all_ok in E1.
           destruct E1 as (fl & F & O & _). apply seqa_ok in E. destruct E as (m2 & E2 & E3). injection E2 as <-.
           assert (X : exists rest, output s' = output s ++ fl ++ trim_end literal ++ rest
             /\ (skipn (end_line (node_pos n)) src = [] -> rest = [])
             /\ (skipn (end_line (node_pos n)) src <> [] ->
                 rest = [c_nl] ++ join [c_nl] (skipn (end_line (node_pos n)) src) ++ (if ends_nl then [c_nl] else []))).
           { unfold extract_source_from_line in E3. rewrite Nat.add_1_r in E3. cbn [Nat.eqb] in E3.
             rewrite orb_false_r in E3. assert (SN : is_nil src = false) by (apply is_nil_false; apply src_lines). rewrite SN in E3.
             replace (S (end_line (node_pos n)) - 1) with (end_line (node_pos n)) in E3 by lia.
             destruct (List.length src <=? end_line (node_pos n)) eqn:LE.
             - injection E3 as <-. exists []. split; [cbn; rewrite O, app_nil_r, <- app_assoc; reflexivity|]. split; [auto|].
               intro Z. exfalso. apply Z. apply skipn_all2. apply Nat.leb_le. exact LE.
             - injection E3 as <-. eexists. split; [cbn; rewrite O, <- !app_assoc; reflexivity|]. split; [|reflexivity].
               intro Z. exfalso. apply Nat.leb_gt in LE. assert (LL := skipn_length (end_line (node_pos n)) src). rewrite Z in LL.
               cbn in LL. unfold str in *. lia. }
           destruct X as (rest & X1 & X2 & X3). eexists. split; [|exact X1].
           eapply nd_disable_file; [exact DD|exact V|apply trim_end_end_core|exact F|exact X2|exact X3].
        -- apply Blk; [reflexivity|]. destruct (node_value n); try exact E.
Qed.

(** ** C65: the text of every document is its blocks in order, and every heading
    that is formatted is what it is by itself when the nouns of the directives
    before it are in the configuration, after those that are there. *)
Theorem C65_document : forall p cs s',
  forallb no_document cs = true ->
  serialize_root U PN ENT o B src ends_nl checks (Node NDocument p cs) = Ok s' ->
  dtext ([], []) [] None Format cs [] (output s').
Proof.
  intros p cs s' D E. unfold serialize_root in E. cbn [serialize] in E. cbv zeta in E. unfold document in E. cbv zeta in E.
  destruct (check_undefined checks src (Node NDocument p cs)) as [ws|]; [|discriminate].
  apply seqa_ok in E. destruct E as (m & E1 & E). injection E1 as <-.
  apply seqa_ok in E. destruct E as (m1 & E1 & E). apply seqa_ok in E. destruct E as (m2 & E2 & E3).
  assert (O1 : output m1 = [] /\ skip m1 = SkipNone /\ named m1 = ([], [])).
  { pose proof (built_inner U o checks any_effect _ (built_collect_lines U o checks false any_effect _ (any_refs _)) _ _ E1) as [S _ _ NP NC _].
    assert (K : forall n s s', collect_reference_lines n s = Ok s' -> output s' = output s).
    { induction n as [v q l IH] using node_ind'. intros s s0 Q. cbn [collect_reference_lines] in Q.
      apply seqa_ok in Q. destruct Q as (y & Q1 & Q2).
      assert (Y : output y = output s).
      { destruct v; injection Q1 as <-; try reflexivity. cbv zeta. destruct (assoc_str name _); reflexivity. }
      rewrite <- Y. clear - IH Q2. revert y Q2. induction l as [|c l IHl]; intros y Q; [injection Q as <-; reflexivity|].
      cbn [map] in Q. rewrite all_cons in Q. apply seqa_ok in Q. destruct Q as (z & Q1 & Q2). inversion IH; subst.
      rewrite (IHl H2 _ Q2). eauto. }
    split; [rewrite (K _ _ _ E1); reflexivity|]. split; [rewrite S; reflexivity|rewrite NP, NC; reflexivity]. }
  assert (MF : map fst (combine cs (with_next ser cs)) = cs).
  { clear. induction cs as [|c cs IH]; [reflexivity|]. cbn [with_next combine map fst]. rewrite IH. reflexivity. }
  rewrite MF in E3.
  assert (O2 : output m2 = [] /\ skip m2 = SkipNone /\ named m2 = ([], [])).
  { destruct O1 as [O1 [S1 NN]]. rewrite <- O1, <- S1, <- NN. clear - E2 D. revert m1 E2. induction cs as [|c cs IH]; intros s E.
    - injection E as <-. auto.
    - cbn [with_next combine map] in E. rewrite all_cons in E. apply seqa_ok in E. destruct E as (z & Q1 & Q2).
      cbn [forallb] in D. apply andb_true_iff in D. destruct D as [Dc D].
      destruct (IH D _ Q2) as [A1 [A2 A3]]. rewrite A1, A2, A3. clear IH A1 A2 A3 Q2. cbn [fst snd] in Q1.
      destruct (is_footnote_def c) eqn:F; [|injection Q1 as <-; auto]. split.
      + destruct c as [v q l]. unfold is_footnote_def in F. cbn [node_value] in F. destruct v; try discriminate F.
        cbn [serialize] in Q1. cbv zeta in Q1. exact (footnote_definition_output _ _ _ _ _ _ _ _ _ Q1).
      + destruct (serialize_inner _ _ _ _ _ _ _ _ _ _ _ _ Dc Q1). split; congruence. }
  destruct O2 as [O2 [S2 N2]].
  destruct (loop_run cs [] None m2 s' D) as (t & T & O).
  - cbn [List.length app]. rewrite Nat.sub_0_r. exact E3.
  - rewrite O2 in *. rewrite S2, N2 in T. cbn [app] in *. rewrite O. replace (htmls (skipn _ [])) with (@nil str) in T; [exact T|].
    rewrite skipn_nil. reflexivity.
Qed.
End Doc.
Print Assumptions C65_document.

(** ** C65: where nothing before it is switched off, each heading of the document
    is in the text as it is by itself with the nouns named before it configured;
    so those named after it do not matter to it. *)
Section Heading.
Variable U : Uni.
Variable PN : list (str * str).
Variable ENT : str -> option str.
Variable o : Options.
Variable B : backend.
Variable src : list str.
Variable ends_nl : bool.
Variable checks : bool.
Notation dtext := (nouned U PN ENT o B checks src ends_nl).
Lemma heading_in : forall pre h l post ns ns' out prev hs t,
  node_value h = NHeading l -> enabled pre -> named_in ns pre ns' -> dtext ns out prev Format (pre ++ h :: post) hs t ->
  exists a x b, t = a ++ x ++ b /\ alone U PN ENT o B checks src ends_nl ns' h x.
Proof.
  induction pre as [|n pre IH]; intros h l post ns ns' out prev hs t V En N T.
  - inversion N; subst. cbn [app] in T. inversion T; subst;
      try (match goal with H : note_definition h |- _ => destruct H as [? H]; congruence end);
      try (match goal with H : html_literal h _ |- _ => unfold html_literal in H; congruence end).
    + match goal with H : frozen Format h = true |- _ => discriminate H end.
    + exists (fl ++ gap prev h), x, t0. split; [subst chunk; rewrite <- !app_assoc; reflexivity|]. eauto.
  - assert (En' : enabled pre) by (intros m d M; apply En; right; exact M).
    assert (Same : (forall d, ~ directs n d) -> named_in ns pre ns') by (intro Q; inversion N; subst; [exfalso; eapply Q; eassumption|assumption]).
    cbn [app] in T. inversion T; subst.
    + apply (IH h l post ns ns' out (Some n) hs t V En'); [|assumption]. apply Same. intros d D.
      match goal with H : note_definition n |- _ => exact (directs_not_note _ _ D H) end.
    + match goal with H : trails n _ |- _ => destruct H as (_ & _ & F); apply Forall_app in F; destruct F as [_ F];
        inversion F as [|? ? [[q Q]|[[q Q] _]] _]; subst; [congruence|unfold html_literal in Q; congruence] end.
    + match goal with H : directs n DisableFile |- _ => destruct (En n _ (or_introl eq_refl) H) end.
    + match goal with H : directs n d |- _ => rename H into D end.
      assert (A : after_directive Format d = Format) by (specialize (En n d (or_introl eq_refl) D); destruct d; try contradiction; reflexivity).
      assert (N' : named_in (named_after ns d) pre ns').
      { inversion N as [|? ? d' ? ? D'|? ? ? ? Q]; subst; [rewrite (directs_unique _ _ _ D D'); assumption|exfalso; exact (Q _ D)]. }
      match goal with H : nouned _ _ _ _ _ _ _ _ _ _ _ _ (pre ++ _) _ _ |- _ => rewrite A in H; rename H into T' end.
      destruct (IH _ _ _ _ _ _ _ _ _ V En' N' T') as (a & x & b & -> & X).
      exists (chunk ++ a), x, b. split; [rewrite <- app_assoc; reflexivity|exact X].
    + match goal with H : frozen Format n = true |- _ => discriminate H end.
    + match goal with H : ordinary n _ |- _ => destruct H as (_ & _ & Q) end.
      match goal with H : nouned _ _ _ _ _ _ _ _ _ _ _ _ (pre ++ _) _ _ |- _ => rename H into T' end.
      destruct (IH _ _ _ _ _ _ _ _ _ V En' (Same Q) T') as (a & y & b & -> & X).
      exists (chunk ++ a), y, b. split; [rewrite <- app_assoc; reflexivity|exact X].
Qed.
Theorem C65_heading : forall p pre h l post ns s',
  src <> [] /\ Forall (fun l => ~ In c_nl l) src -> forallb no_document (pre ++ h :: post) = true ->
  node_value h = NHeading l -> enabled pre -> named_in ([], []) pre ns ->
  serialize_root U PN ENT o B src ends_nl checks (Node NDocument p (pre ++ h :: post)) = Ok s' ->
  exists a x b, output s' = a ++ x ++ b /\ alone U PN ENT o B checks src ends_nl ns h x.
Proof.
  intros p pre h l post ns s' L D V En N E.
  eapply heading_in; [exact V|exact En|exact N|]. eapply C65_document; eassumption.
Qed.
End Heading.
Print Assumptions C65_heading.

(** ** Example *)
Definition src65 : list str :=
  [lit "### About prooflab"; []; lit "<!-- hongdown-proper-nouns: ProofLab -->"; []; lit "### About prooflab and Swift"; [];
   lit "<!-- hongdown-common-nouns: Swift -->"; []; lit "### Of Swift prooflab"].
Definition html65 (k : nat) (t : string) : node := Node (NHtmlBlock (lit t ++ [c_nl])) (mkPos k 1 k 40) [].
Definition head65 (k : nat) (t : string) : node :=
  Node (NHeading 3) (mkPos k 1 k (4 + String.length t)) [Node (NText (lit t)) (mkPos k 5 k (4 + String.length t)) []].
Definition pre65 : list node :=
  [head65 1 "About prooflab"; html65 3 "<!-- hongdown-proper-nouns: ProofLab -->"; head65 5 "About prooflab and Swift";
   html65 7 "<!-- hongdown-common-nouns: Swift -->"].
Definition last65 : node := head65 9 "Of Swift prooflab".
Definition opts65 : Options := let d := default_options in
  mkOptions (line_width d) (setext_h1 d) (setext_h2 d) true [lit "ACME"] []
    (unordered_marker d) (leading_spaces d) (trailing_spaces d) (indent_width d) (odd_level_marker d) (even_level_marker d)
    (ordered_list_pad d) (ordered_list_indent_width d) (fence_char d) (min_fence_length d) (space_after_fence d)
    (default_language d) (thematic_break_style d) (thematic_break_leading_spaces d) (curly_double_quotes d)
    (curly_single_quotes d) (curly_apostrophes d) (ellipsis d) (en_dash d) (em_dash d) (code_formatters d).
Definition run65 (n : node) : res str :=
  rbind (serialize_root uni_ascii [(lit "Swift", lit "swift")] (fun _ => None) opts65 (Wasm None) src65 true true n) (fun s => Ok (output s)).
(** The hypotheses hold, and each of the three headings is written with its own
    nouns. *)
Example C65_witness :
  (src65 <> [] /\ Forall (fun l => ~ In c_nl l) src65) /\ forallb no_document (pre65 ++ [last65]) = true
  /\ enabled pre65 /\ named_in ([], []) pre65 ([lit "ProofLab"], [lit "Swift"])
  /\ run65 (Node NDocument (mkPos 1 1 9 40) (pre65 ++ [last65])) = Ok (
       lit "### About prooflab" ++ [c_nl; c_nl] ++ lit "<!-- hongdown-proper-nouns: ProofLab -->" ++ [c_nl; c_nl]
       ++ lit "### About ProofLab and Swift" ++ [c_nl; c_nl] ++ lit "<!-- hongdown-common-nouns: Swift -->" ++ [c_nl; c_nl]
       ++ lit "### Of swift ProofLab" ++ [c_nl])
  /\ alone uni_ascii [(lit "Swift", lit "swift")] (fun _ => None) opts65 (Wasm None) true src65 true
       ([lit "ProofLab"], [lit "Swift"]) last65 (lit "### Of swift ProofLab" ++ [c_nl]).
Proof.
  assert (D : forall n d, directive_of n = Some d -> directs n d) by (intros n d; apply directs_iff).
  assert (ND : forall n, directive_of n = None -> forall d, ~ directs n d) by (intros n E d C; apply directs_iff in C; congruence).
  split; [|split; [|split; [|split; [|split]]]].
  - split; [discriminate|]. repeat (constructor; [vm_compute; intuition discriminate|]). constructor.
  - reflexivity.
  - intros n d I C. apply directs_iff in C. unfold pre65 in I. cbn [In] in I.
    repeat destruct I as [<-|I]; try contradiction; vm_compute in C; try discriminate; injection C as <-; exact Logic.I.
  - eapply ni_other; [apply ND; vm_compute; reflexivity|]. eapply ni_directive; [apply D; vm_compute; reflexivity|].
    eapply ni_other; [apply ND; vm_compute; reflexivity|]. eapply ni_directive; [apply D; vm_compute; reflexivity|]. apply ni_nil.
  - vm_compute. reflexivity.
  - eexists. split; vm_compute; reflexivity.
Qed.
