(** The document loop. *)
From Coq Require Import Bool Arith NArith Lia ZifyBool ZifyNat ZifyN String List.
From Verif Require Import Base BaseFacts OptsModel WrapModel CodeModel TableModel HeadingModel AstModel StateModel
  InlineModel WarnModel SerModel SpecState SpecContext SpecDoc StateProof PropsState SerFacts PropsOrder SerBuilt OutputProof.
Import ListNotations.

(** ** What happens inside a node that contains no document *)
Definition inner_event (e : event) : Prop := match e with Use _ | Code _ => True | _ => False end.
Record inner (s s' : st) : Prop := {
  in_skip : skip s' = skip s;
  in_emitted : emitted_references s' = emitted_references s;
  in_notes : f_emitted (footnotes s') = f_emitted (footnotes s);
  in_proper : proper_nouns s' = proper_nouns s;
  in_common : common_nouns s' = common_nouns s;
  in_trace : exists t, trace s' = trace s ++ t /\ Forall inner_event t
}.
Lemma inner_refl : forall s, inner s s.
Proof. intro s. split; try reflexivity. exists []. split; [rewrite app_nil_r; reflexivity|constructor]. Qed.
Lemma inner_trans : forall a b c, inner a b -> inner b c -> inner a c.
Proof.
  intros a b c [] []. split; try congruence. destruct in_trace0 as (t & E & F), in_trace1 as (u & E2 & F2).
  exists (t ++ u). split; [rewrite app_assoc; congruence|apply Forall_app; auto].
Qed.
Ltac inner0 := split; try reflexivity; cbn; exists []; split; [rewrite app_nil_r; reflexivity|constructor].
Ltac inner1 := split; try reflexivity; cbn; eexists; split; [reflexivity|repeat constructor].

Section Inner.
Variable U : Uni.
Variable o : Options.
Variable checks : bool.
Variable ok : effect -> Prop.
Theorem built_inner : forall a, built U o checks false ok a -> forall s s', a s = Ok s' -> inner s s'.
Proof.
  intros a H. induction H; intros s s' E; try discriminate.
  - injection E as <-. apply inner_refl.
  - apply seqa_ok in E. destruct E as (m & E1 & E2). eapply inner_trans; eauto.
  - unfold get in E. eauto.
  - injection E as <-. inner0.
  - injection E as <-. inner1.
  - injection E as <-. cbv zeta. destruct (f_collecting (footnotes s)); inner1.
  - injection E as <-. inner0.
  - injection E as <-. inner0.
  - injection E as <-. inner0.
  - injection E as <-. cbv zeta. destruct (assoc_str n _); inner0.
  - injection E as <-. inner0.
  - injection E as <-. inner0.
  - unfold single_block, get in E. apply seqa_ok in E. destruct E as (m & E1 & E).
    apply seqa_ok in E. destruct E as (m2 & E2 & E). apply seqa_ok in E. destruct E as (m3 & E3 & E4).
    injection E1 as <-. injection E3 as <-. apply IHbuilt in E2. apply H1 in E4.
    eapply inner_trans; [|eapply inner_trans; [exact E2|]]; [inner0|]. eapply inner_trans; [|exact E4]. inner0.
  - rewrite <- H0 in E. eauto.
Qed.
End Inner.

Theorem serialize_inner : forall U PN ENT o B src ends_nl checks next n s s',
  no_document n = true -> serialize U PN ENT o B src ends_nl checks next n s = Ok s' -> inner s s'.
Proof.
  intros U PN ENT o B src ends_nl checks next n s s' D. apply (built_inner U o checks any_effect). apply built_serialize; [apply any0|auto|apply any_ok].
Qed.

(** ** Footnote definitions write nothing *)
Lemma events_output : forall l s s', all (map do_event l) s = Ok s' -> output s' = output s.
Proof.
  induction l as [|e l IH]; intros s s' E; [injection E as <-; reflexivity|]. cbn [map] in E. rewrite all_cons in E.
  apply seqa_ok in E. destruct E as (m & E1 & E2). rewrite (IH _ _ E2).
  destruct e; injection E1 as <-; cbv zeta; [destruct (f_collecting (footnotes s))|]; reflexivity.
Qed.
Lemma single_output : forall a k s s', single_block a k s = Ok s' ->
  exists m x, output m = output s /\ k x m = Ok s'.
Proof.
  intros a k s s' E. unfold single_block, get in E. apply seqa_ok in E. destruct E as (m & E1 & E).
  apply seqa_ok in E. destruct E as (m2 & E2 & E). apply seqa_ok in E. destruct E as (m3 & E3 & E4).
  injection E3 as <-. eexists. eexists. split; [|exact E4]. reflexivity.
Qed.
Lemma footnote_blocks_output : forall k f result first s s',
  (forall x m m', f x m = Ok m' -> output m' = output m) ->
  footnote_blocks result first k f s = Ok s' -> output s' = output s.
Proof.
  induction k as [|[n a] k IH]; intros f result first s s' Hf E; cbn [footnote_blocks] in E; [exact (Hf _ _ _ E)|].
  apply single_output in E. destruct E as (m & x & O & E). rewrite <- O. exact (IH _ _ _ _ _ Hf E).
Qed.
Lemma footnote_definition_output : forall U ENT o src name cs k s s',
  footnote_definition U ENT o src name cs k s = Ok s' -> output s' = output s.
Proof.
  intros U ENT o src name cs k s s' E. unfold footnote_definition, get in E. cbv zeta in E.
  apply seqa_ok in E. destruct E as (m & E1 & E). assert (O : output m = output s) by (injection E1 as <-; reflexivity).
  rewrite <- O. set (line := match assoc_str name _ with Some l => l | None => 0 end) in *.
  assert (F : forall x m m', (set_collecting false 0 ;; add_footnote (mkFootnote name x line (footnote_has_blocks cs))) m = Ok m' ->
                             output m' = output m) by (intros x y z Z; injection Z as <-; reflexivity).
  destruct (footnote_has_blocks cs).
  - revert E. apply footnote_blocks_output. exact F.
  - destruct (wcat (with_next (collect_inline U ENT o src) cs)) as [[x evs]|]; [|discriminate]. cbn [inline] in E.
    apply seqa_ok in E. destruct E as (m2 & E2 & E3). rewrite (F _ _ _ E3). exact (events_output _ _ _ E2).
Qed.

(** ** Flushing writes definitions *)
Section Flush.
Variable U : Uni.
Variable o : Options.
Variable checks : bool.

Lemma definitions_nil : definitions U o checks [].
Proof. exists []. split; [constructor|reflexivity]. Qed.
Lemma definitions_app : forall a b, definitions U o checks a -> definitions U o checks b -> definitions U o checks (a ++ b).
Proof.
  intros a b (ps & F & ->) (qs & G & ->). exists (ps ++ qs). split; [apply Forall_app; auto|]. rewrite concat_app. reflexivity.
Qed.
Lemma definitions_blank : forall out, definitions U o checks (blank_before out).
Proof.
  intro out. unfold blank_before. destruct (ends_with [c_nl; c_nl] out); [apply definitions_nil|].
  destruct (ends_with [c_nl] out); [exists [[c_nl]]|exists [[c_nl; c_nl]]]; (split; [|reflexivity]);
    (constructor; [|constructor]); unfold piece; auto.
Qed.
Lemma definitions_refs : forall l, definitions U o checks (flat_map reference_text l).
Proof.
  intro l. exists (map reference_text l). split; [|symmetry; rewrite <- flat_map_concat_map; reflexivity].
  apply Forall_map. apply Forall_forall. intros r _. unfold piece. right. right. left. exists r. apply reference_text_line.
Qed.
Lemma definitions_notes : forall l texts, Forall2 (fun f t => footnote_text U o checks f = Ok t) l texts ->
  definitions U o checks (List.concat texts).
Proof.
  intros l texts H. exists texts. split; [|reflexivity]. induction H; constructor; [|exact IHForall2].
  unfold piece. right. right. right. eexists. eassumption.
Qed.
Lemma definitions_section : forall out body b, definitions U o checks body -> definitions U o checks (section_text out body b).
Proof.
  intros out body b H. unfold section_text. destruct b; [apply definitions_nil|]. apply definitions_app; [apply definitions_blank|exact H].
Qed.

Lemma flush_all_ok : forall before s s', flush_all U o checks before s = Ok s' ->
  exists fl, definitions U o checks fl /\ output s' = output s ++ fl /\ skip s' = skip s.
Proof.
  intros before s s' E. unfold flush_all in E. apply seqa_ok in E. destruct E as (m & E1 & E).
  apply seqa_ok in E. destruct E as (m2 & E2 & E3).
  apply flush_footnotes_ok in E1. destruct E1 as (texts & F & O1 & E1). decompose [and] E1. clear E1.
  destruct (flush_references_eq m) as (m2' & E2' & O2 & R2). rewrite E2' in E2. injection E2 as <-. decompose [and] R2. clear R2.
  destruct (flush_footnote_references_eq before m2') as (m3 & E3' & O3 & R3). rewrite E3' in E3. injection E3 as <-. decompose [and] R3. clear R3.
  eexists. split; [|split; [rewrite O3, O2, O1, <- !app_assoc; reflexivity|congruence]].
  apply definitions_app; [apply definitions_section; eapply definitions_notes; exact F|].
  apply definitions_app; apply definitions_section; apply definitions_refs.
Qed.
End Flush.

(** ** Trailing HTML *)
Definition mt (n : node) : bool :=
  match node_value n with
  | NHtmlBlock l => match parse_directive l with Some _ => false | None => true end
  | NFootnoteDefinition _ => true
  | _ => false
  end.
Lemma directs_iff : forall n d, directs n d <-> directive_of n = Some d.
Proof.
  intros n d. unfold directs, directive_of. split.
  - intros (l & body & -> & C & F). apply C35_directives. exists body. auto.
  - destruct (node_value n) as [] eqn:V; try discriminate. intro H. apply C35_directives in H. destruct H as (body & C & F).
    exists literal, body. auto.
Qed.
Lemma note_iff : forall n, note_definition n <-> is_footnote_def n = true.
Proof.
  intro n. unfold note_definition, is_footnote_def. destruct (node_value n); split; try discriminate; try (intros [x E]; discriminate E).
  - intros _. reflexivity.
  - intros _. eexists. reflexivity.
Qed.
Lemma may_trail_iff : forall n, may_trail n <-> mt n = true.
Proof.
  intro n. unfold may_trail, mt, html_literal. rewrite note_iff. unfold is_footnote_def.
  assert (D : (forall d, ~ directs n d) <-> directive_of n = None).
  { split.
    - intro H. destruct (directive_of n) as [d|] eqn:E; [|reflexivity]. exfalso. apply (H d). apply directs_iff. exact E.
    - intros H d C. apply directs_iff in C. congruence. }
  rewrite D. unfold directive_of. destruct (node_value n); split; try discriminate;
    try (intros [H|[[l H] _]]; congruence); try (intros _; left; reflexivity).
  - intros [H|[_ H]]; [discriminate|]. rewrite H. reflexivity.
  - intro H. right. split; [eexists; reflexivity|]. destruct (parse_directive literal); [discriminate|reflexivity].
Qed.
Lemma trailing_html_spec : forall l seen start, start <= seen ->
  let T := trailing_html l seen start in
  (T = start \/ exists j, j < List.length l /\ T = seen + j + 1 /\ forallb mt (firstn (S j) l) = true)
  /\ start <= T
  /\ forall j n, nth_error l j = Some n -> is_html_block n = true -> forallb mt (firstn (S j) l) = true -> seen + j + 1 <= T.
Proof.
  induction l as [|c l IH]; intros seen start H; cbn [trailing_html].
  - split; [left; reflexivity|]. split; [lia|]. intros [|j] n E; discriminate E.
  - cbv zeta. destruct (mt c) eqn:M.
    + assert (Step : exists start', (start' = start \/ start' = S seen) /\ (is_html_block c = true -> start' = S seen) /\
        (match node_value c with
         | NHtmlBlock l0 => match parse_directive l0 with Some _ => start | None => trailing_html l (S seen) (S seen) end
         | NFootnoteDefinition _ => trailing_html l (S seen) start
         | _ => start end) = trailing_html l (S seen) start').
      { unfold mt in M. unfold is_html_block. destruct (node_value c); try discriminate M.
        - destruct (parse_directive literal); [discriminate|]. exists (S seen). auto.
        - exists start. split; [auto|]. split; [discriminate|]. reflexivity. }
      destruct Step as (start' & S1 & S2 & ->).
      destruct (IH (S seen) start' ltac:(destruct S1; lia)) as (A & B & C). cbv zeta in *. split; [|split].
      * destruct A as [A|(j & J & A & F)].
        -- destruct S1 as [->| ->]; [left; exact A|]. right. exists 0. cbn [List.length firstn forallb]. rewrite M. split; [lia|]. split; [lia|reflexivity].
        -- right. exists (S j). cbn [List.length]. split; [lia|]. split; [lia|]. change (firstn (S (S j)) (c :: l)) with (c :: firstn (S j) l).
           cbn [forallb]. rewrite M. exact F.
      * destruct S1; lia.
      * intros [|j] n E Hn F.
        -- injection E as <-. pose proof (S2 Hn) as Q. lia.
        -- change (firstn (S (S j)) (c :: l)) with (c :: firstn (S j) l) in F. cbn [forallb] in F. rewrite M in F.
           specialize (C j n E Hn F). lia.
    + assert (Step : (match node_value c with
         | NHtmlBlock l0 => match parse_directive l0 with Some _ => start | None => trailing_html l (S seen) (S seen) end
         | NFootnoteDefinition _ => trailing_html l (S seen) start
         | _ => start end) = start).
      { unfold mt in M. destruct (node_value c); try reflexivity; try discriminate M. destruct (parse_directive literal); [reflexivity|discriminate]. }
      rewrite Step. split; [left; reflexivity|]. split; [lia|]. intros j n E Hn F. exfalso.
      cbn [firstn forallb] in F. rewrite M in F. discriminate F.
Qed.

Lemma forallb_firstn : forall A (f : A -> bool) l a b, a <= b -> forallb f (firstn b l) = true -> forallb f (firstn a l) = true.
Proof.
  intros A f l. induction l as [|x l IH]; intros a b H F; [rewrite firstn_nil; reflexivity|].
  destruct a as [|a]; [reflexivity|]. destruct b as [|b]; [lia|]. cbn [firstn forallb] in *.
  apply andb_true_iff in F. destruct F as [F1 F2]. rewrite F1. apply (IH a b); [lia|exact F2].
Qed.
Lemma trails_iff : forall pre n rest, is_html_block n = true ->
  (find_trailing_html_blocks (pre ++ n :: rest) - List.length pre = 0 <-> trails n rest).
Proof.
  intros pre n rest Hn. unfold find_trailing_html_blocks. set (cs := pre ++ n :: rest).
  destruct (trailing_html_spec (rev cs) 0 0 ltac:(lia)) as (A & _ & C). cbv zeta in *.
  set (T := trailing_html (rev cs) 0 0) in *. cbn [plus] in *.
  assert (R : rev cs = (rev rest ++ [n]) ++ rev pre).
  { unfold cs. rewrite rev_app_distr. cbn [rev]. reflexivity. }
  assert (L : List.length cs = List.length pre + S (List.length rest)) by (unfold cs; rewrite app_length; reflexivity).
  assert (FN : firstn (S (List.length rest)) (rev cs) = rev rest ++ [n]).
  { rewrite R. replace (S (List.length rest)) with (List.length (rev rest ++ [n])) by (rewrite app_length, rev_length; cbn; lia).
    rewrite firstn_app, Nat.sub_diag, firstn_all. cbn [firstn]. apply app_nil_r. }
  assert (TR : trails n rest <-> forallb mt (rev rest ++ [n]) = true).
  { unfold trails. rewrite forallb_app. cbn [forallb]. rewrite andb_true_r, andb_true_iff. rewrite may_trail_iff.
    assert (FR : Forall may_trail rest <-> forallb mt (rev rest) = true).
    { rewrite Forall_forall, forallb_forall. split; intros H x I.
      - apply may_trail_iff. apply H. apply in_rev. exact I.
      - apply may_trail_iff. apply H. apply -> in_rev. exact I. }
    rewrite FR. unfold html_literal. unfold is_html_block in Hn. split; [tauto|]. intros [X Y]. split; [|tauto].
    destruct (node_value n); try discriminate Hn. eexists. reflexivity. }
  rewrite TR. split.
  - intro Z. destruct A as [A|(j & J & A & F)]; [lia|]. rewrite <- FN. apply (forallb_firstn _ _ _ _ (S j)); [lia|exact F].
  - intro F. rewrite <- FN in F. assert (N : nth_error (rev cs) (List.length rest) = Some n).
    { rewrite R, <- app_assoc. rewrite nth_error_app2 by (rewrite rev_length; lia). rewrite rev_length, Nat.sub_diag. reflexivity. }
    specialize (C _ _ N Hn F). lia.
Qed.

(** Literals of HTML blocks. *)
Definition htmls (cs : list node) : list str :=
  flat_map (fun n => match node_value n with NHtmlBlock l => [l] | _ => [] end) cs.
Lemma output_trailing_rest : forall cs s s', output_trailing false cs s = Ok s' -> output s' = output s ++ List.concat (htmls cs).
Proof.
  induction cs as [|c cs IH]; intros s s' E; cbn [output_trailing] in E.
  - injection E as <-. cbn. rewrite app_nil_r. reflexivity.
  - unfold htmls in *. cbn [flat_map].
    destruct (node_value c); try (cbn [app]; apply IH; exact E).
    apply seqa_ok in E. destruct E as (m & E1 & E). injection E1 as <-. apply seqa_ok in E. destruct E as (m2 & E2 & E3).
    injection E2 as <-. rewrite (IH _ _ E3). cbn. rewrite <- app_assoc. reflexivity.
Qed.
Lemma output_trailing_first : forall cs s s', output_trailing true cs s = Ok s' ->
  output s' = output s ++ (if is_nil (htmls cs) then [] else blank_before (output s)) ++ List.concat (htmls cs).
Proof.
  induction cs as [|c cs IH]; intros s s' E; cbn [output_trailing] in E.
  - injection E as <-. cbn. rewrite app_nil_r. reflexivity.
  - unfold htmls in *. cbn [flat_map].
    destruct (node_value c); try (cbn [app]; apply IH; exact E).
    apply seqa_ok in E. destruct E as (m & E1 & E). rewrite ensure_blank_line_eq in E1. injection E1 as <-.
    apply seqa_ok in E. destruct E as (m2 & E2 & E3).
    injection E2 as <-. rewrite (output_trailing_rest _ _ _ E3). cbn. rewrite <- !app_assoc. reflexivity.
Qed.
