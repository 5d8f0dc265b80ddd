(** C45: formatting what was formatted changes nothing. *)
From Coq Require Import Bool Arith NArith Lia ZifyBool ZifyNat ZifyN String List.
From Verif Require Import Base BaseFacts WrapModel WrapProof OptsModel CodeModel HeadingModel TableModel AstModel StateModel InlineModel WarnModel SerModel
  SpecCode SpecHeading SpecRefs SpecWrap SpecBlocks SpecEnd SpecStructure SpecAgain StateProof BlocksProof ParaProof NestProof PropsWrap PropsBlocks StructProof StructList StructDoc PropsStructure AgainProof.
Import ListNotations.

(** The segments of a text, wrapped, as lines that are wrapped to themselves. *)
Lemma layouts : forall U lw, width_laws U -> forall fp cp ss, spaced fp -> spaced cp ->
  Forall (fun s => Forall (fun l => sparse true l /\ firm l /\ inside l) (soft_lines s)) ss ->
  exists Bs, Forall (fun B => B <> []) Bs /\ Forall (Forall firm) Bs /\ Forall (Forall inside) Bs
    /\ map (fun s => wrap_text_first_line_segment U s fp cp lw) ss = map (fun B => join [c_nl] (rows fp cp B)) Bs
    /\ map (fun B => wrap_text_first_line_segment U (join [soft] B) fp cp lw) Bs = map (fun B => join [c_nl] (rows fp cp B)) Bs.
Proof.
  intros U lw W fp cp ss Sf Sc F. induction F as [|s ss F1 F IH]; [exists []; repeat split; constructor|].
  destruct IH as (Bs & N & Fi & I & E1 & E2). destruct (segment_again U W lw fp cp s Sf Sc F1) as (B & NB & FB & IB & EB1 & EB2).
  exists (B :: Bs). split; [constructor; assumption|]. split; [constructor; assumption|]. split; [constructor; assumption|].
  cbn [map]. split; f_equal; assumption.
Qed.

(** A paragraph that was wrapped is wrapped to the same lines: its lines are
    read back, two spaces at the end of a line as a hard break, and wrapped
    again with the same width and prefixes. *)
Theorem C45_wrap_again : forall U t p lw, width_laws U -> spaced p -> Forall (fun c => c <> c_nl) p -> single_spaced t ->
  wrap_text U (reread p p (wrap_text U t p lw)) p lw = wrap_text U t p lw.
Proof.
  intros U t p lw W Sp Np T. 
  assert (F : Forall (fun s => Forall (fun l => sparse true l /\ firm l /\ inside l) (soft_lines s)) (segments t)).
  { apply Forall_forall. intros s Is. apply Forall_forall. intros l Il. exact (spaced_lines t s l T Is Il). }
  destruct (layouts U lw W p p (segments t) Sp Sp F) as (Bs & N & Fi & I & E1 & E2).
  assert (O : wrap_text U t p lw = join hard_break (map (join [c_nl]) (map (rows p p) Bs))).
  { rewrite wrap_text_eq, map_map. f_equal. rewrite <- E1. apply map_ext. intro s. apply wrap_text_segment_eq. }
  destruct Bs as [|B Bs].
  { exfalso. apply map_eq_nil in E1. exact (split_on_nonempty _ _ E1). }
  assert (R : reread p p (wrap_text U t p lw) = join [c_nl] (map (join [soft]) (B :: Bs))) by (rewrite O; cbn [map]; apply reread_written; assumption).
  rewrite R, O, wrap_text_eq, segments_joined by (discriminate || assumption). f_equal. rewrite !map_map, <- E2. apply map_ext. intro x. apply wrap_text_segment_eq.
Qed.
Print Assumptions C45_wrap_again.
(** The same for the first paragraph of a list item, whose first line has
    another prefix. *)
Theorem C45_wrap_first_again : forall U t fp cp lw, width_laws U -> spaced fp -> spaced cp ->
  Forall (fun c => c <> c_nl) fp -> Forall (fun c => c <> c_nl) cp -> single_spaced t ->
  wrap_text_first_line U (reread fp cp (wrap_text_first_line U t fp cp lw)) fp cp lw = wrap_text_first_line U t fp cp lw.
Proof.
  intros U t fp cp lw W Sf Sc Nf Nc T.
  assert (F : Forall (fun s => Forall (fun l => sparse true l /\ firm l /\ inside l) (soft_lines s)) (segments t)).
  { apply Forall_forall. intros s Is. apply Forall_forall. intros l Il. exact (spaced_lines t s l T Is Il). }
  destruct (segments t) as [|s ss] eqn:Es; [exfalso; exact (split_on_nonempty _ _ Es)|]. inversion F as [|? ? F1 F2]; subst.
  destruct (segment_again U W lw fp cp s Sf Sc F1) as (B & NB & FB & IB & EB1 & EB2).
  destruct (layouts U lw W [] cp ss (or_introl eq_refl) Sc F2) as (Bs & N & Fi & I & E1 & E2).
  assert (Rw : forall X, cp ++ join [c_nl] (rows [] cp X) = if is_nil X then cp else join [c_nl] (rows cp cp X)).
  { intros [|x [|y X]]; cbn [rows map is_nil join app]; [apply app_nil_r|reflexivity|]. rewrite (app_assoc cp x). reflexivity. }
  assert (Rr : map (fun x => cp ++ join [c_nl] (rows [] cp x)) Bs = map (join [c_nl]) (map (rows cp cp) Bs)).
  { rewrite map_map. apply map_ext_in. intros X IX. rewrite Rw. rewrite Forall_forall in N. destruct X; [destruct (N _ IX eq_refl)|reflexivity]. }
  assert (O : wrap_text_first_line U t fp cp lw = join hard_break (map (join [c_nl]) (rows fp cp B :: map (rows cp cp) Bs))).
  { rewrite (wrap_text_first_line_eq _ _ _ _ _ _ _ Es). cbn [map]. f_equal. f_equal; [exact EB1|]. rewrite <- Rr.
    rewrite <- (map_map (fun s => wrap_text_first_line_segment U s [] cp lw) (app cp)), E1, map_map. reflexivity. }
  assert (R : reread fp cp (wrap_text_first_line U t fp cp lw) = join [c_nl] (map (join [soft]) (B :: Bs))) by (rewrite O; apply reread_written; repeat (assumption || constructor)).
  rewrite R. assert (Sg : segments (join [c_nl] (map (join [soft]) (B :: Bs))) = map (join [soft]) (B :: Bs)) by (apply segments_joined; [discriminate|constructor; assumption]).
  cbn [map] in Sg. rewrite (wrap_text_first_line_eq _ _ _ _ _ _ _ Sg), O. cbn [map]. f_equal. f_equal; [exact EB2|]. rewrite <- Rr, map_map.
  rewrite <- (map_map (fun B => wrap_text_first_line_segment U (join [soft] B) [] cp lw) (app cp)), E2, map_map. reflexivity.
Qed.
Print Assumptions C45_wrap_first_again.

(** A text with a hard break, a source line that is too long, a link that is
    not broken and a code span. *)
Definition C45_text : str :=
  lit "short line" ++ [soft] ++ lit "a longer line with [a link text](u) in it" ++ [soft] ++ lit "tail" ++ [c_nl] ++ lit "then `x y z` and more words".
Lemma single_spaced_ok : forall t,
  forallb (fun s => forallb (fun l => seqb (trim l) l && negb (is_nil l)) (soft_lines s)) (segments t)
  && negb (contains_sub [c_sp; c_sp] t) && forallb (fun c => negb (is_ws c) || ceq c c_sp || ceq c c_nl) t = true -> single_spaced t.
Proof.
  intros t H. apply andb_true_iff in H. destruct H as [H H3]. apply andb_true_iff in H. destruct H as [H1 H2]. split; [|split].
  - apply Forall_forall. intros s Is. rewrite forallb_forall in H1. specialize (H1 s Is). apply Forall_forall. intros l Il.
    rewrite forallb_forall in H1. specialize (H1 l Il). apply andb_true_iff in H1. destruct H1 as [A B]. apply seqb_true in A. split; [exact A|].
    destruct l; [discriminate|discriminate].
  - intros a b E. apply negb_true_iff in H2. assert (K : contains_sub [c_sp; c_sp] t = true) by (apply contains_true; exists a, b; exact E). congruence.
  - apply Forall_forall. intros c Ic Wc. rewrite forallb_forall in H3. specialize (H3 c Ic). rewrite Wc in H3. cbn in H3. apply orb_true_iff in H3.
    destruct H3 as [H3|H3]; apply ceq_true in H3; auto.
Qed.
Example C45_wrapped : single_spaced C45_text
  /\ wrap_text uni_ascii C45_text (lit "> ") 20 = text_of [lit "> short line"; lit "> a longer line"; lit "> with"; lit "> [a link text](u)"; lit "> in it tail  "; lit "> then `x y z` and"] ++ lit "> more words"
  /\ reread (lit "> ") (lit "> ") (wrap_text uni_ascii C45_text (lit "> ") 20) <> C45_text
  /\ wrap_text uni_ascii (reread (lit "> ") (lit "> ") (wrap_text uni_ascii C45_text (lit "> ") 20)) (lit "> ") 20 = wrap_text uni_ascii C45_text (lit "> ") 20.
Proof.
  split; [apply single_spaced_ok; vm_compute; reflexivity|]. split; [vm_compute; reflexivity|]. split; [intro K; vm_compute in K; discriminate K|].
  apply C45_wrap_again; [exact uni_ascii_width|right; exists (lit ">"); reflexivity|repeat constructor; discriminate|apply single_spaced_ok; vm_compute; reflexivity].
Qed.
Example C45_wrapped_item :
  wrap_text_first_line uni_ascii (reread [] (spaces 4) (wrap_text_first_line uni_ascii C45_text [] (spaces 4) 20)) [] (spaces 4) 20
  = wrap_text_first_line uni_ascii C45_text [] (spaces 4) 20.
Proof.
  apply C45_wrap_first_again; [exact uni_ascii_width|left; reflexivity|right; exists (spaces 3); reflexivity|constructor|repeat constructor; discriminate|apply single_spaced_ok; vm_compute; reflexivity].
Qed.

(** ** Where it changes again *)
(** Two spaces between words count for the width, and are gone once the line is
    broken there: the second time more fits on a line. *)
Theorem C45_double_space_refuted : exists t lw out, wrap_text uni_ascii t [] lw = out
  /\ Forall (fun s => Forall trimmed (soft_lines s)) (segments t) /\ Forall (fun c => is_ws c = true -> c = c_sp) t
  /\ wrap_text uni_ascii (reread [] [] out) [] lw <> out.
Proof.
  exists (lit "[a long link] one.  Two words"), 9. eexists. split; [vm_compute; reflexivity|]. split.
  - vm_compute. repeat constructor; discriminate.
  - split; [|intro K; vm_compute in K; discriminate K]. apply Forall_forall. intros c Ic Wc. vm_compute in Ic.
    repeat (destruct Ic as [<-|Ic]; [first [reflexivity|discriminate Wc]|]). destruct Ic.
Qed.
Print Assumptions C45_double_space_refuted.

(** The items of a tight list are written one after the other, but code in an
    item is written after a blank line.  That makes the list a loose one, whose
    items are written with blank lines between them. *)
Definition list45 (tight : bool) (k l : nat) : list node :=
  [at44 1 (NList Bullet tight) [item44 1 [par44 1 (lit "a"); at44 k (NCodeBlock [] (lit "x" ++ [c_nl])) []]; item44 l [par44 l (lit "b")]]].
Definition lines45 : list str := [lit "- a"; lit "  ~~~"; lit "  x"; lit "  ~~~"; lit "- b"].
Definition text45 : str := text_of [lit " -  a"; []; lit "    ~~~~"; lit "    x"; lit "    ~~~~"; lit " -  b"].
Definition text45_again : str := text_of [lit " -  a"; []; lit "    ~~~~"; lit "    x"; lit "    ~~~~"; []; lit " -  b"].
Lemma blocks45 : reads_document text45
  [SpecBlocks.List (BulletOf c_dash) [(None, [para (lit "a"); SpecBlocks.Code [] [lit "x"]]); (None, [para (lit "b")])]].
Proof. split; [intros (? & ? & Q & [->| ->]); vm_compute in Q; discriminate Q|]. exists 30. vm_compute. reflexivity. Qed.
Lemma keeps45 : forall src tight k l,
  inline_content uni_ascii (fun _ => None) default_options src (par44 1 (lit "a")) = Ok (lit "a", []) ->
  inline_content uni_ascii (fun _ => None) default_options src (par44 l (lit "b")) = Ok (lit "b", []) ->
  keeps_structure uni_ascii [] (fun _ => None) default_options (Wasm None) src (list45 tight k l) text45.
Proof.
  intros src tight k l Ea Eb. split; [eexists; exact blocks45|]. intros bs [_ Rb]. rewrite (reads_unique _ _ _ Rb (proj2 blocks45)).
  apply C44_no_notes; [repeat constructor|reflexivity|]. constructor; [|constructor]. apply (sm_list uni_ascii [] (fun _ => None) default_options (Wasm None) src 0 Bullet tight).
  constructor; [|constructor; [|constructor]]; constructor.
  - constructor; [|constructor; [|constructor]].
    + apply (sm_para uni_ascii [] (fun _ => None) default_options (Wasm None) src 1 _ _ (lit "a")). exists (lit "a"), []. split; [exact Ea|reflexivity].
    + apply (sm_code uni_ascii [] (fun _ => None) default_options (Wasm None) src 1 [] (lit "x" ++ [c_nl]) _ _ 0 (lit "x" ++ [c_nl]) [] None). apply S_no_callback. reflexivity.
  - constructor; [|constructor]. apply (sm_para uni_ascii [] (fun _ => None) default_options (Wasm None) src 1 _ _ (lit "b")). exists (lit "b"), []. split; [exact Eb|reflexivity].
Qed.
(** The list read back has the blocks of the text, and is loose as its first
    item holds two blocks with a blank line between them. *)
Theorem C45_tight_list_refuted : exists src cs text cs' text',
  out44 default_options src cs = Ok text
  /\ keeps_structure uni_ascii [] (fun _ => None) default_options (Wasm None) src cs text
  /\ keeps_structure uni_ascii [] (fun _ => None) default_options (Wasm None) (lines text) cs' text
  /\ (exists is', cs' = [at44 1 (NList Bullet false) is'])
  /\ out44 default_options (lines text) cs' = Ok text' /\ text' <> text.
Proof.
  exists lines45, (list45 true 2 5), text45, (list45 false 3 6), text45_again.
  split; [vm_compute; reflexivity|]. split; [apply keeps45; vm_compute; reflexivity|]. split; [apply keeps45; vm_compute; reflexivity|].
  split; [eexists; reflexivity|]. split; [vm_compute; reflexivity|]. intro Q. vm_compute in Q. discriminate Q.
Qed.
Print Assumptions C45_tight_list_refuted.
