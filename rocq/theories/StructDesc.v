(** Description lists, continuing [StructProof]. *)
From Coq Require Import Bool Arith NArith Lia ZifyBool ZifyNat ZifyN String List.
From Verif Require Import Base BaseFacts WrapModel SpecWrap WrapProof OptsModel CodeModel HeadingModel TableModel AstModel StateModel InlineModel WarnModel SerModel
  SpecCode SpecHeading SpecRefs SpecBlocks SpecEnd SpecStructure SpecGaps SpecState SpecContext StateProof SerFacts HeadingProof EndProof CodeProof BlocksProof ParaProof NestProof LeafProof PropsBlocks
  StructShift StructProof.
Import ListNotations.

(** ** Code in details *)
Definition fenced_lines (o : Options) (n : nat) (info content : str) : list str :=
  (repc (fence_char_char (fence_char o)) n ++ info_suffix o info) :: lines content ++ [repc (fence_char_char (fence_char o)) n].
Lemma fenced_line : forall o n t, 3 <= n -> let l := repc (fence_char_char (fence_char o)) n ++ t in
  begins_dark l /\ marker_of l = None.
Proof.
  intros o [|n] t L l; [lia|]. unfold l. destruct (fence_char o); cbn [fence_char_char repc repeat app].
  - split; [eexists _, _; split; reflexivity|reflexivity].
  - split; [eexists _, _; split; reflexivity|reflexivity].
Qed.
Lemma fenced_block : forall o n info content, 3 <= n -> info_survives o info -> no_lone_cr content ->
  Forall (fun l => closing_fence (fence_char_char (fence_char o)) n l = false) (lines content) ->
  block_lines (fenced_lines o n info content) (SpecBlocks.Code info (cm_lines content)).
Proof.
  intros o n info content M I N Cl. destruct (fenced_line o n (info_suffix o info) M) as (D & K).
  destruct (dark_margin _ D) as (Mg & Bl & Rn & Tb). split.
  - eexists _, _. split; [reflexivity|]. split; [split; [exact Bl|split; [lia|exact Tb]]|]. apply (item_line_none _ _ Mg K).
  - intros rest bs _ [m R]. apply reads_step. exists m. unfold fenced_lines. cbn [app read_step]. rewrite Bl, Mg.
    assert (O : opening_fence (repc (fence_char_char (fence_char o)) n ++ info_suffix o info) = Some (fence_char_char (fence_char o), n, 0, info))
      by (apply opening_fence_written; [lia|exact I]).
    rewrite O. cbn [is_some]. unfold read_code, read_fenced. rewrite O, <- app_assoc. cbn [app].
    rewrite fence_body_app.
    + rewrite R, lines_cm by exact N. reflexivity.
    + exact Cl.
    + apply closing_fence_self; [apply fence_char_not_ws|]. destruct (fence_char o); discriminate.
Qed.
Lemma fenced_shift : forall j o n info content, j <= 3 -> 3 <= n -> info_survives o info -> no_lone_cr content ->
  Forall (fun l => closing_fence (fence_char_char (fence_char o)) n l = false) (lines content) ->
  block_lines (map (ind j) (fenced_lines o n info content)) (SpecBlocks.Code info (cm_lines content)).
Proof.
  intros j o n info content J M I N Cl. destruct (fenced_line o n (info_suffix o info) M) as (D & K). destruct (fenced_line o n [] M) as (D2 & _). rewrite app_nil_r in D2.
  set (fence := repc (fence_char_char (fence_char o)) n) in *.
  assert (O0 : opening_fence (fence ++ info_suffix o info) = Some (fence_char_char (fence_char o), n, 0, info)) by (apply opening_fence_written; [lia|exact I]).
  assert (C : closing_fence (fence_char_char (fence_char o)) n fence = true) by (apply closing_fence_self; [apply fence_char_not_ws|]; destruct (fence_char o); discriminate).
  unfold fenced_lines. fold fence. cbn [map]. rewrite map_app. cbn [map].
  assert (Hd : forall l, begins_dark l -> ind j l = spaces j ++ l) by (intros l (c & r & -> & _); apply ind_cons; discriminate).
  rewrite (Hd _ D), (Hd _ D2). clearbody fence. split.
  - eexists _, _. split; [reflexivity|]. split; [apply shallow_spaces; assumption|]. apply (item_line_none _ _ (margin_spaces j _ J D) K).
  - intros rest bs _ [m R]. apply reads_step. exists m. cbn [app read_step]. rewrite is_blank_spaces. destruct (dark_margin _ D) as (_ & -> & _).
    rewrite (margin_spaces j _ J D).
    assert (O : opening_fence (spaces j ++ fence ++ info_suffix o info) = Some (fence_char_char (fence_char o), n, j, info)).
    { unfold opening_fence in *. rewrite (dark_indent _ D) in O0. rewrite (fence_shift j _ 0 _ ltac:(lia) (dark_indent _ D)).
      destruct (fence ++ info_suffix o info) as [|c s]; [discriminate|]. destruct (ceq c c_bt || ceq c c_tilde); [|discriminate]. cbv zeta in *.
      destruct (_ && _); [|discriminate]. rewrite Nat.add_0_r. injection O0 as -> <- <-. reflexivity. }
    rewrite O. cbn [is_some]. unfold read_code, read_fenced. rewrite O, <- app_assoc. cbn [app].
    rewrite fence_body_ind.
    + rewrite R, lines_cm by exact N. reflexivity.
    + exact Cl.
    + unfold closing_fence in *. rewrite (dark_indent _ D2) in C. rewrite (fence_shift j _ 0 _ ltac:(lia) (dark_indent _ D2)). exact C.
Qed.
Lemma fenced_tabs : forall o n info content, 3 <= n -> no_lone_cr content -> Forall (fun l => tabbed l = false) (cm_lines content) ->
  Forall (fun l => tabbed l = false) (fenced_lines o n info content).
Proof.
  intros o n info content M N T. constructor; [apply dark_margin; apply fenced_line; exact M|]. apply Forall_app. rewrite lines_cm by exact N. split; [exact T|].
  constructor; [|constructor]. rewrite <- (app_nil_r (repc _ n)). apply dark_margin, fenced_line. exact M.
Qed.
Lemma fenced_trim : forall o n info content, 3 <= n -> trim_end (last (fenced_lines o n info content) []) = last (fenced_lines o n info content) [].
Proof.
  intros o [|n] info content L; [lia|]. unfold fenced_lines. rewrite app_comm_cons, last_last. unfold repc. cbn [repeat]. rewrite repeat_cons. apply trim_end_snoc_id.
  destruct (fence_char o); reflexivity.
Qed.
Lemma fenced_chars : forall o n info content, info_survives o info -> no_lone_cr content -> Forall (Forall line_char) (fenced_lines o n info content).
Proof.
  intros o n info content I N. constructor; [apply Forall_app; split; [apply repc_line_char|apply info_suffix_line_char; exact I]|].
  apply Forall_app. split; [apply lines_line_chars; exact N|]. constructor; [apply repc_line_char|constructor].
Qed.
Lemma fenced_last : forall o n info content, 3 <= n -> last (fenced_lines o n info content) [] <> [].
Proof. intros o [|n] info content L; [lia|]. unfold fenced_lines. rewrite app_comm_cons, last_last. discriminate. Qed.
Lemma detail_code_written : forall o B k info literal, 3 <= min_fence_length o -> exists content calls failed, settles o B k info literal content calls failed
  /\ ((forall a b, content <> a ++ repc (fence_char_char (fence_char o)) (S (min_fence_length o)) ++ b) -> content = [] \/ (exists t, content = t ++ [c_nl]) ->
      exists n, 3 <= n /\ Forall (fun l => closing_fence (fence_char_char (fence_char o)) n l = false) (lines content)
        /\ spaces 4 ++ fst (code_block_with_indent o B k info literal (spaces 4)) = text_of (map (ind 4) (fenced_lines o n (block_info o info) content))).
Proof.
  intros o B k info literal M. unfold code_block_with_indent.
  destruct (code_parts o B k info literal) as [[oi content] eff] eqn:E.
  apply code_parts_settles in E. destruct E as (-> & failed & Se & _). exists content, (eff_calls eff), failed. split; [exact Se|].
  intros Hrun Hnl. set (fc := fence_char_char (fence_char o)) in *.
  set (n := if contains_sub (repc fc (min_fence_length o)) content then S (min_fence_length o) else min_fence_length o).
  assert (Hfe : (if contains_sub (repc fc (min_fence_length o)) content
                 then repc fc (min_fence_length o + 1) else repc fc (min_fence_length o)) = repc fc n).
  { unfold n. rewrite Nat.add_1_r. destruct (contains_sub _ _); reflexivity. }
  rewrite Hfe. assert (Hn : 3 <= n) by (unfold n; destruct (contains_sub _ _); lia).
  exists n. split; [exact Hn|]. split.
  { apply Forall_forall. intros l Hl. apply not_true_is_false. intro K.
    apply closing_fence_contains in K. destruct K as (a & b & K).
    apply lines_in in Hl. destruct Hl as (a' & b' & Hl). subst l.
    assert (Hc : content = (a' ++ a) ++ repc fc n ++ (b ++ b')) by (rewrite Hl, <- !app_assoc; reflexivity).
    revert Hc. unfold n, contains_sub. destruct (find_sub (repc fc (min_fence_length o)) content) eqn:Ef.
    - apply Hrun.
    - apply find_sub_none. auto. }
  assert (Hend : negb (ends_with [c_nl] content) && negb (is_nil content) = false).
  { destruct Hnl as [->|(t & ->)]; [reflexivity|].
    assert (ends_with [c_nl] (t ++ [c_nl]) = true) by (apply ends_with_true; eauto). rewrite H. reflexivity. }
  rewrite Hend. cbn [app fst]. unfold fenced_lines, text_of. fold fc. cbn [map flat_map]. rewrite map_app, flat_map_app. cbn [map flat_map app].
  assert (Q : forall t, ind 4 (repc fc n ++ t) = spaces 4 ++ repc fc n ++ t) by (intro t; destruct n; [lia|reflexivity]).
  assert (Q0 : ind 4 (repc fc n) = spaces 4 ++ repc fc n) by (destruct n; [lia|reflexivity]).
  rewrite Q, Q0, app_nil_r, <- !app_assoc. do 4 f_equal. f_equal. rewrite flat_map_concat_map, (flat_map_concat_map _ (map (ind 4) _)), map_map. reflexivity.
Qed.

Section Describe.
Variable U : Uni.
Variable PN : list (str * str).
Variable ENT : str -> option str.
Variable o : Options.
Variable B : backend.
Variable src : list str.
Variable ends_nl : bool.
Variable checks : bool.
Notation ser := (serialize U PN ENT o B src ends_nl checks).
Notation good := (SpecStructure.good U PN ENT o B src).
Notation good_entry := (SpecStructure.good_entry U PN ENT o B src).
Notation same := (SpecStructure.same U PN ENT o B src).
Notation same_entry := (SpecStructure.same_entry U PN ENT o B src).
Notation para_text := (SpecStructure.para_text U ENT o src).
Notation wrote := (StructProof.wrote U PN ENT o B src).
Notation emits := (StructProof.emits U PN ENT o B src ends_nl checks).
Notation kids_of := (StructProof.kids_of U PN ENT o B src ends_nl checks).
Notation fits := (SpecStructure.detail_fits o B).
Notation detail_same := (fun n => same (detail_depth n) n).

Definition ctx_details (c : ctx) : Prop := exists c0, ctx_at (At 0 0 0) c0 /\ c = set_in_details true c0.
Lemma details_quotable : forall c, ctx_details c -> quotable 0 1 (set_item_indent (lit "    ") c).
Proof.
  intros c (c0 & [] & ->). cbn [outer marks inner] in *. constructor; [reflexivity|cbn; exact ca_prefix|].
  constructor; cbn [outer marks inner enter_blockquote set_item_indent set_in_details list_type in_block_quote blockquote_prefix list_depth
    in_description_details description_details_first_list list_item_indent blockquote_outer_indent blockquote_entry_list_depth];
    try reflexivity; try discriminate; try tauto. rewrite ca_prefix. reflexivity.
Qed.
Lemma lf_one : forall ls, map (lf (At 0 0 1)) ls = map (ind 4) ls.
Proof. intro ls. apply map_ext. intro l. unfold lf. cbn [outer marks inner quo_times]. rewrite ind_zero. reflexivity. Qed.
Lemma quoted_kids : forall cs, Forall (good (At 1 1 0)) cs -> Forall (fun c => good (At 1 1 0) c /\ emits (At 1 1 0) c) cs.
Proof.
  intros cs F. eapply Forall_impl; [|exact F]. intros c G. split; [exact G|]. inversion G; subst.
  - apply para_emits; [|exact G]. right. auto.
  - apply rule_emits. exact G.
Qed.
(** A paragraph. *)
Lemma detail_para_at : forall k q cs mark s s', good (At 0 k 1) (Node NParagraph q cs) ->
  details_paragraph U ENT o src (quote_marks k) mark (Node NParagraph q cs) s = Ok s' ->
  cx s' = cx s /\ exists x l ls, para_text 1 (Node NParagraph q cs) x /\ para_lines x (l :: ls)
    /\ output s' = output s ++ text_of (map (lf (At 0 k 0)) ((mark ++ l) :: map (ind 4) ls)).
Proof.
  intros k q cs mark s s' G E. inversion G as [? ? ? ? ? x evs Un Ic Df Sf Ua| | | | | | | | |]; subst. cbn [Nat.eqb] in Sf.
  unfold details_paragraph in E. apply seqa_ok in E. destruct E as (m & E1 & E). injection E1 as <-.
  apply inline_ok in E. destruct E as (x' & evs' & m & Ew & Om & Cm & E). rewrite Ic in Ew. injection Ew as <- <-. injection E as <-. cbn [cx set_output output app] in *.
  split; [exact Cm|]. destruct (wrapped_first_lines U (trim x) [] (quote_marks k ++ lit "    ") (line_width o) Sf) as (l & ls & P & W).
  cbn [app] in W. exists (trim x), l, ls. split; [exists x, evs; auto|]. split; [exact P|]. rewrite Om, W, <- app_assoc. f_equal. cbn [map].
  pose proof (para_dark _ _ P) as Pd. assert (L0 : mark ++ l <> []). { apply Forall_inv in Pd. destruct l; [congruence|]. destruct mark; discriminate. }
  rewrite (lf_lead (At 0 k 0) _ L0). unfold lead. cbn [outer marks inner]. change (spaces (4 * 0)) with (@nil char). cbn [app]. rewrite app_nil_r, !text_of_cons, <- !app_assoc. do 4 f_equal.
  f_equal. rewrite map_map. apply map_ext_in. intros y I. rewrite <- lf_item. rewrite Forall_forall in Pd. specialize (Pd y (or_intror I)).
  rewrite lf_lead by exact Pd. unfold lead. cbn [outer marks inner]. reflexivity.
Qed.
Lemma detail_para : forall q cs mark s s', good (At 0 0 1) (Node NParagraph q cs) ->
  details_paragraph U ENT o src [] mark (Node NParagraph q cs) s = Ok s' ->
  cx s' = cx s /\ exists x l ls, para_text 1 (Node NParagraph q cs) x /\ para_lines x (l :: ls)
    /\ output s' = output s ++ text_of ((mark ++ l) :: map (ind 4) ls).
Proof.
  intros q cs mark s s' G E. destruct (detail_para_at 0 q cs mark s s' G E) as (C & x & l & ls & T & P & O). split; [exact C|].
  exists x, l, ls. split; [exact T|]. split; [exact P|]. rewrite lf_top in O. exact O.
Qed.
Lemma detail_step : forall c next s s', ctx_details (cx s) -> good (At 0 0 1) c -> fits c ->
  details_children U ENT o B src [] false [(c, ser next c)] s = Ok s' ->
  cx s' = cx s /\ exists ls b, wrote (At 0 0 1) c ls b /\ detail_same c b /\ output s' = output s ++ text_of (map (ind 4) ([] :: ls)).
Proof.
  intros c next s s' C G Ft E. cbn [details_children] in E. apply seqa_ok in E. destruct E as (m & E & E0). injection E0 as <-.
  apply seqa_ok in E. destruct E as (m0 & E0 & E). injection E0 as <-.
  assert (Fin : forall X ls, output m = output (set_output (output s ++ [c_nl]) s) ++ X -> X = text_of (map (ind 4) ls) -> output m = output s ++ text_of (map (ind 4) ([] :: ls))).
  { intros X ls -> ->. cbn [output set_output map]. rewrite text_of_cons, <- app_assoc. reflexivity. }
  inversion G as [? ? ? q cs x evs|?|? ? info literal q cs Kd Sv|?|? ? q cs Kd Nc A F|? ? a q cs Kd A F|? ? kind tight q cs Kd Nc| | |]; subst; cbn [node_value] in E.
  - (* paragraph *)
    destruct (detail_para _ _ _ _ _ G E) as (Cx & y & l & ls & T & P & O). split; [exact Cx|]. exists (l :: ls), (Para (map words (segments y))).
    split; [apply para_wrote; [exact T|exact P|discriminate]|]. split; [apply sm_para; exact T|]. eapply Fin; [exact O|]. cbn [map].
    rewrite (ind_cons 4 l) by exact (Forall_inv (para_dark _ _ P)). reflexivity.
  - (* code *)
    apply seqa_ok in E. destruct E as (m1 & E1 & E2). injection E1 as <-. cbn [app] in E2.
    assert (Cx : cx m = cx s).
    { unfold code_act, get in E2. destruct (code_block_with_indent _ _ _ _ _ _) as [text eff]. apply seqa_ok in E2. destruct E2 as (m1 & E1 & E).
      apply seqa_ok in E. destruct E as (m2 & E2 & E3). injection E1 as <-. injection E2 as <-. injection E3 as <-. reflexivity. }
    split; [exact Cx|]. apply code_ok in E2. destruct E2 as [n O]. destruct Sv as (M & Iv & Sv).
    destruct (detail_code_written o B n info literal M) as (content & calls & failed & Sl & Wr). destruct (Ft _ _ _ _ Sl) as [F1 F2].
    destruct (Wr F1 F2) as (w & Lw & Cl & Wt). destruct (Sv _ _ _ _ Sl) as [Nl _].
    exists (fenced_lines o w (block_info o info) content), (SpecBlocks.Code (block_info o info) (cm_lines content)). split; [|split].
    + constructor; try discriminate.
      * apply fenced_block; assumption.
      * eapply sm_code. exact Sl.
      * apply fenced_chars; assumption.
      * intros [K|K]; [destruct K; reflexivity|]. apply fenced_tabs; [exact Lw|exact Nl|exact (K _ _ _ _ Sl)].
      * apply fenced_last. exact Lw.
      * intros _. apply fenced_trim. exact Lw.
      * intros j J _. apply fenced_shift; assumption.
      * apply spc_other. exact Logic.I.
    + eapply sm_code. exact Sl.
    + eapply Fin; [|exact Wt]. rewrite O. cbn [output set_output]. rewrite <- app_assoc. reflexivity.
  - (* quote *)
    unfold with_item_indent, get in E. apply seqa_ok in E. destruct E as (m1 & E1 & E). apply seqa_ok in E. destruct E as (m2 & E2 & E3).
    injection E1 as <-. injection E3 as <-. cbn [serialize] in E2. cbv zeta in E2.
    destruct (quote_wrote U PN ENT o B src ends_nl checks 0 1 q cs (set_cx (set_item_indent (lit "    ") (cx s)) (set_output (output s ++ [c_nl]) s)) _ Kd Nc A (quoted_kids _ F) (details_quotable _ C) E2) as (Cx & ls & b & W & O & S).
    cbn [cx set_cx output] in *. split; [rewrite Cx; destruct (cx s); reflexivity|]. exists ls, b. split; [exact W|]. split; [apply S|].
    eapply Fin; [exact O|]. rewrite lf_one. reflexivity.
  - (* alert *)
    unfold with_item_indent, get in E. apply seqa_ok in E. destruct E as (m1 & E1 & E). apply seqa_ok in E. destruct E as (m2 & E2 & E3).
    injection E1 as <-. injection E3 as <-. cbn [serialize] in E2. cbv zeta in E2.
    destruct (alert_wrote U PN ENT o B src ends_nl checks 0 1 a q cs (set_cx (set_item_indent (lit "    ") (cx s)) (set_output (output s ++ [c_nl]) s)) _ Kd A (quoted_kids _ F) (details_quotable _ C) E2) as (Cx & ls & b & W & O & S).
    cbn [cx set_cx output] in *. split; [rewrite Cx; destruct (cx s); reflexivity|]. exists ls, b. split; [exact W|]. split; [apply S|].
    eapply Fin; [exact O|]. rewrite lf_one. reflexivity.
  - destruct Ft.
Qed.
Lemma details_apart : forall c cs, good (At 0 0 1) c -> fits c -> apart cs -> apart (c :: cs).
Proof.
  intros c cs G F A. cbn [apart]. split; [|exact A]. destruct cs as [|c' cs]; [exact Logic.I|]. split.
  - intros k t k' t' E. unfold detail_fits in F. rewrite E in F. destruct F.
  - intro E. inversion G; subst; discriminate.
Qed.
Lemma details_rest : forall cs ks, kids_of cs ks -> forall s s', ctx_details (cx s) -> Forall (good (At 0 0 1)) cs -> Forall fits cs ->
  details_children U ENT o B src [] false ks s = Ok s' ->
  cx s' = cx s /\ exists ls bs, output s' = output s ++ text_of (map (ind 4) ls) /\ Forall2 detail_same cs bs /\ Forall2 (same 1) cs bs
    /\ Forall (Forall line_char) ls /\ (ls <> [] -> last ls [] <> []) /\ apart cs
    /\ forall kb, Forall (fun l => is_blank l = true) kb -> onward (ls ++ kb) bs /\ blank_next (ls ++ kb).
Proof.
  intros cs ks K. induction K as [|c [c' a] cs ks [nx Ea] K IH]; intros s s' C G F E.
  - injection E as <-. split; [reflexivity|]. exists [], []. unfold text_of. cbn [map flat_map]. rewrite app_nil_r. split; [reflexivity|].
    split; [constructor|]. split; [constructor|]. split; [constructor|]. split; [congruence|]. split; [exact Logic.I|]. intros kb Bk. cbn [app].
    split; [rewrite <- (app_nil_r kb); apply onward_blanks; [exact Bk|apply onward_nil]|]. destruct Bk; [exact Logic.I|assumption].
  - injection Ea as -> ->. cbn [details_children] in E. apply seqa_ok in E. destruct E as (m & E1 & E2).
    assert (E1' : details_children U ENT o B src [] false [(c, ser nx c)] s = Ok m).
    { cbn [details_children]. apply seqa_ok. exists m. split; [exact E1|reflexivity]. }
    clear E1. inversion G as [|? ? Gc G']; subst. inversion F as [|? ? Fc F']; subst.
    destruct (detail_step c nx s m C Gc Fc E1') as (Cm & lc & b & W & Sd & Om).
    destruct (IH m s' ltac:(rewrite Cm; exact C) G' F' E2) as (Cx & ls & bs & O & S1 & S2 & Ch & La & Ap & Rd).
    pose proof (wrote_nonempty _ _ _ _ _ _ _ _ _ _ W) as Nw.
    split; [rewrite Cx; exact Cm|]. exists (([] :: lc) ++ ls), (b :: bs).
    split; [rewrite O, Om, <- app_assoc, <- text_of_app, <- map_app; reflexivity|].
    split; [constructor; assumption|]. split; [constructor; [exact (wr_same _ _ _ _ _ _ _ _ _ _ W)|exact S2]|].
    split. { apply Forall_app. split; [constructor; [constructor|exact (wr_chars _ _ _ _ _ _ _ _ _ _ W)]|exact Ch]. }
    assert (A' : apart (c :: cs)) by (apply details_apart; assumption).
    split. { intros _. destruct ls as [|l ls].
      - rewrite app_nil_r. destruct lc as [|l0 lc]; [congruence|]. exact (wr_end _ _ _ _ _ _ _ _ _ _ W).
      - rewrite last_app_ne by discriminate. apply La. discriminate. }
    split; [exact A'|]. intros kb Bk. split; [|reflexivity]. destruct (Rd kb Bk) as [On Bn]. rewrite <- app_assoc. cbn [app].
    apply (onward_blanks [[]]); [repeat constructor|]. apply onward_block; [exact (wr_block _ _ _ _ _ _ _ _ _ _ W)| |exact (on_reads _ _ On)].
    eapply (follows_next _ _ _ _ _ _ 1 c b _ cs bs); [exact (wr_same _ _ _ _ _ _ _ _ _ _ W)|exact A'|exact S2|exact On|exact Bn].
Qed.

(** ** Terms with their details *)
Lemma entry_run : forall k n next s s', good_entry k n -> ctx_at (At 0 k 0) (cx s) -> ser next n s = Ok s' ->
  cx s' = cx s /\ exists x t tls l more inner, para_lines x (t :: tls) /\ begins_dark l
    /\ output s' = output s ++ text_of (map (lf (At 0 k 0)) ((t :: tls) ++ (details_mark ++ l) :: map (ind 4) more))
    /\ same_entry n (map words (segments x), inner)
    /\ Forall line_char l /\ Forall (Forall line_char) more /\ (more <> [] -> last more [] <> [])
    /\ (k <> 0 -> unalerted x /\ Forall (fun l => tabbed l = false) more)
    /\ forall k, Forall (fun l => is_blank l = true) k -> reads (l :: more ++ k) inner.
Proof.
  intros k n next s s' G C E. inversion G as [? p q r t ts u us ds Gt Gu Nd Fd Gd]; subst. cbn [serialize combine with_next children_acts] in E. cbv zeta in E.
  apply seqa_ok in E. destruct E as (m & E1 & E). apply seqa_ok in E. destruct E as (m2 & E2 & E3). injection E3 as ->.
  cbn [serialize combine with_next children_acts] in E1, E2. cbv zeta in E1, E2. apply seqa_ok in E1. destruct E1 as (m1 & E1 & E0). injection E0 as ->.
  (* the term *)
  destruct (para_run U PN ENT o B src ends_nl checks (At 0 k 0) t ts None s m ltac:(left; cbn; auto) C Gt E1) as (Cm & x & tls & X & T & P & Ua & Om & Ex).
  cbn [inner Nat.eqb] in Ex. subst X. destruct tls as [|t0 tls]; [destruct (pl_nonempty _ _ P eq_refl)|].
  (* the details *)
  cbn [snd] in E2. unfold description_details, get in E2. apply seqa_ok in E2. destruct E2 as (m3 & E3 & E). apply seqa_ok in E. destruct E as (m4 & E4 & E5).
  injection E3 as <-. injection E5 as <-.
  assert (Eq : (if in_block_quote (cx m) then blockquote_outer_indent (cx m) ++ blockquote_prefix (cx m) else []) = quote_marks k).
  { rewrite Cm, (ca_quote _ _ C), (ca_prefix _ _ C), (ca_outer _ _ C). cbn [outer marks]. destruct k; reflexivity. }
  match type of E4 with details_children _ _ _ _ _ ?q _ _ _ = _ => replace q with (quote_marks k) in E4 by (symmetry; exact Eq) end. cbn [combine with_next] in E4. cbn [details_children node_value] in E4. apply seqa_ok in E4. destruct E4 as (m5 & E5 & E6).
  destruct (detail_para_at _ _ _ _ _ _ Gu E5) as (C5 & y & l & ls & Ty & Py & O5). cbn [cx set_cx output] in *.
  assert (Rest : cx m4 = cx m5 /\ exists ls bs, output m4 = output m5 ++ text_of (map (lf (At 0 k 0)) (map (ind 4) ls)) /\ Forall2 detail_same ds bs /\ Forall2 (same 1) ds bs
    /\ Forall (Forall line_char) ls /\ (ls <> [] -> last ls [] <> []) /\ apart ds /\ (k <> 0 -> ls = [])
    /\ forall kb, Forall (fun l => is_blank l = true) kb -> onward (ls ++ kb) bs /\ blank_next (ls ++ kb)).
  { destruct k as [|k].
    - destruct (details_rest ds (combine ds (with_next ser ds)) (kids_next U PN ENT o B src ends_nl checks ds) m5 m4) as (C4 & ls' & bs & O4 & R1 & R2 & R3 & R4 & R5 & R6); auto.
      { rewrite C5. exists (cx m). split; [rewrite Cm; exact C|reflexivity]. }
      split; [exact C4|]. exists ls', bs. rewrite lf_top. repeat (split; [assumption|]). split; [congruence|exact R6].
    - rewrite (Nd ltac:(discriminate)) in *. injection E6 as <-. split; [reflexivity|].
      exists [], []. unfold text_of. cbn [map flat_map]. rewrite app_nil_r. split; [reflexivity|].
      split; [constructor|]. split; [constructor|]. split; [constructor|]. split; [congruence|]. split; [exact Logic.I|]. split; [reflexivity|]. intros kb Bk. cbn [app].
      split; [rewrite <- (app_nil_r kb); apply onward_blanks; [exact Bk|apply onward_nil]|]. destruct Bk; [exact Logic.I|assumption]. }
  destruct Rest as (C4 & ls' & bs & O4 & S1 & S2 & Ch & La & Ap & Nl & Rd).
  split. { rewrite C4, C5, Cm. destruct (cx s). reflexivity. }
  pose proof (char_line _ (pl_chars _ _ Py)) as Lc. pose proof (Forall_inv (pl_plain _ _ Py)) as (Dl & _).
  exists x, t0, tls, l, (ls ++ ls'), (Para (map words (segments y)) :: bs). split; [exact P|]. split; [exact Dl|]. split; [|split; [|split; [|split; [|split; [|split]]]]].
  - rewrite O4, O5, Om. change (details_mark) with (lit ":   "). rewrite <- !app_assoc, <- !text_of_app, <- !map_app. cbn [app]. rewrite <- map_app. reflexivity.
  - apply (sm_entry U PN ENT o B src p q r t ts (Node NParagraph u us :: ds) x (Para (map words (segments y)) :: bs)); [exact T|].
    constructor; [apply sm_para; exact Ty|exact S1].
  - exact (Forall_inv Lc).
  - apply Forall_app. split; [exact (Forall_inv_tail Lc)|exact Ch].
  - intro N. destruct ls' as [|l' ls']; [|rewrite last_app_ne by discriminate; apply La; discriminate]. rewrite app_nil_r in *.
    pose proof (para_dark _ _ Py) as D. apply Forall_inv_tail in D. destruct (exists_last N) as (a & z & ->). rewrite last_last. apply Forall_app in D. exact (Forall_inv (proj2 D)).
  - intro K. split; [apply Ua; [exact K|reflexivity]|]. rewrite (Nl K), app_nil_r. pose proof (Forall_inv_tail (pl_plain _ _ Py)) as Pl.
    eapply Forall_impl; [|exact Pl]. intros y' (D & _). apply (dark_margin y' D).
  - intros kb Bk. rewrite <- app_assoc. destruct (Rd kb Bk) as [On Bn]. change (l :: ls ++ ls' ++ kb) with ((l :: ls) ++ ls' ++ kb).
    apply (para_block _ _ Py); [|exact (on_reads _ _ On)]. apply blank_stops. exact Bn.
Qed.
Lemma entries_run : forall k cs ks, kids_of cs ks -> forall first s s', ctx_at (At 0 k 0) (cx s) -> Forall (good_entry k) cs ->
  description_list first ks s = Ok s' ->
  cx s' = cx s /\ exists ls es, output s' = output s ++ text_of (map (lf (At 0 k 0)) ((if first || is_nil cs then [] else [[]]) ++ ls)) /\ Forall2 same_entry cs es
    /\ Forall (Forall line_char) ls /\ (cs = [] -> ls = []) /\ (cs <> [] -> last ls [] <> [] /\ exists l r, ls = l :: r /\ shallow l /\ item_line l = None)
    /\ (k <> 0 -> Forall (fun l => tabbed l = false) ls /\ (cs <> [] -> quote_sort_of (hd [] ls) = Plain_quote))
    /\ forall rest bs, blank_next rest -> calm rest -> entries_ahead bs = false -> reads rest bs -> cs <> [] -> reads (ls ++ rest) (Describe es :: bs).
Proof.
  intros k cs ks K. induction K as [|c [c' a] cs ks [nx Ea] K IH]; intros first s s' C G E.
  - injection E as <-. split; [reflexivity|]. exists [], []. rewrite orb_true_r. unfold text_of. cbn [app map flat_map]. rewrite app_nil_r. split; [reflexivity|].
    split; [constructor|]. split; [constructor|]. split; [reflexivity|]. split; [congruence|]. split; [|congruence]. intros _. split; [constructor|congruence].
  - injection Ea as -> ->. cbn [description_list] in E. apply seqa_ok in E. destruct E as (m & E1 & E). apply seqa_ok in E. destruct E as (m2 & E2 & E3).
    assert (M : cx m = cx s /\ output m = output s ++ text_of (map (lf (At 0 k 0)) (if first then [] else [[]]))).
    { destruct first; [injection E1 as <-; split; [reflexivity|symmetry; apply app_nil_r]|]. unfold get in E1. rewrite (ca_quote _ _ C), (ca_indent _ _ C), (ca_prefix _ _ C) in E1. cbn [outer marks inner] in E1.
      destruct k as [|k]; injection E1 as <-; (split; [reflexivity|]); [reflexivity|]. cbn [output set_output map]. rewrite lf_bare, quote_marks_succ. unfold text_of. cbn [flat_map].
      rewrite app_nil_r. change (spaces (4 * 0)) with (@nil char). cbn [app]. f_equal. f_equal. change (lit "> ") with (lit ">" ++ [c_sp]). rewrite app_assoc. rewrite trim_end_snoc_ws by reflexivity. change (lit ">") with [c_gt]. rewrite trim_end_snoc_id by reflexivity. reflexivity. }
    destruct M as [Cm Om]. inversion G as [|? ? Gc G']; subst.
    destruct (entry_run k c nx m m2 Gc ltac:(rewrite Cm; exact C) E2) as (C2 & x & t & tls & l & more & inner & P & D & O2 & Se & Lc & Lm & La & Qu & Rd).
    destruct (IH false m2 s' ltac:(rewrite C2, Cm; exact C) G' E3) as (Cx & ls & es & O & S' & Ch & En & He & Qs & Rs).
    split; [rewrite Cx, C2; exact Cm|]. cbn [orb] in O. set (sep := if is_nil cs then [] else [[]] : list str) in *.
    set (el := (t :: tls) ++ (details_mark ++ l) :: map (ind 4) more) in *.
    exists (el ++ sep ++ ls), ((map words (segments x), inner) :: es). split.
    { rewrite O, O2, Om. cbn [is_nil]. rewrite orb_false_r, !map_app, !text_of_app, <- !app_assoc. reflexivity. }
    split; [constructor; assumption|]. split.
    { unfold el. repeat (apply Forall_app; split).
      - exact (char_line _ (pl_chars _ _ P)).
      - constructor; [apply Forall_app; split; [repeat (constructor; [split; discriminate|]); constructor|exact Lc]|].
        apply Forall_map. eapply Forall_impl; [|exact Lm]. apply ind_chars.
      - unfold sep. destruct cs; repeat constructor.
      - exact Ch. }
    split; [discriminate|].
    assert (Hd : shallow t /\ item_line t = None).
    { destruct (para_block _ _ P) as [(t' & r' & Q & H1 & H2) _]. injection Q as <- _. split; assumption. }
    split.
    { intros _. split; [|exists t, (tls ++ (details_mark ++ l) :: map (ind 4) more ++ sep ++ ls); split; [unfold el; cbn [app]; rewrite <- app_assoc; reflexivity|exact Hd]].
      destruct cs as [|c1 cs].
      - unfold sep. cbn [is_nil app]. rewrite (En eq_refl), app_nil_r. unfold el. rewrite last_app_ne by discriminate. destruct more as [|m0 more].
        + cbn [map last]. destruct l; discriminate.
        + specialize (La ltac:(discriminate)). change ((details_mark ++ l) :: map (ind 4) (m0 :: more)) with ([details_mark ++ l] ++ map (ind 4) (m0 :: more)).
          rewrite last_app_ne by discriminate. destruct (@exists_last _ (m0 :: more) ltac:(discriminate)) as (a & z & Q). rewrite Q in *. rewrite last_last in La.
          rewrite map_app. cbn [map]. rewrite last_last. rewrite ind_cons by exact La. destruct z; [congruence|discriminate].
      - destruct (He ltac:(discriminate)) as [Ll (l1 & r1 & -> & _)]. rewrite last_app_ne by (unfold sep; discriminate). rewrite last_app_ne by discriminate. exact Ll. }
    split.
    { intro K0. destruct (Qu K0) as [Ua Tm]. split.
      - unfold el. repeat (apply Forall_app; split).
        + eapply Forall_impl; [|exact (pl_plain _ _ P)]. intros y' (D' & _). apply (dark_margin y' D').
        + constructor; [reflexivity|]. apply Forall_map. eapply Forall_impl; [|exact Tm]. intros y'. apply tabbed_ind.
        + unfold sep. destruct cs; repeat constructor.
        + apply Qs. exact K0.
      - intros _. unfold el. cbn [app hd]. eapply sort_of_first; [exact P|exact Ua]. }
    intros rest bs Bn Ca Ea R _. unfold el. rewrite <- !app_assoc. cbn [app].
    change (t :: tls ++ (details_mark ++ l) :: map (ind 4) more ++ sep ++ ls ++ rest) with ((t :: tls) ++ (details_mark ++ l) :: map (ind 4) more ++ sep ++ ls ++ rest).
    destruct cs as [|c1 cs].
    + unfold sep. cbn [is_nil app]. rewrite (En eq_refl). cbn [app]. inversion S'; subst.
      eapply (reads_entry x (t :: tls) l more rest inner bs); [exact P|exact D|left; reflexivity| |exact Rd|exact R|].
      * destruct rest as [|r0 rest]; [exact Logic.I|]. left. split; [exact Bn|exact Ca].
      * unfold add_entry. rewrite Ea. destruct bs as [|b bs]; [reflexivity|]. destruct b; try reflexivity. discriminate Ea.
    + specialize (Rs rest bs Bn Ca Ea R ltac:(discriminate)). unfold sep. cbn [is_nil app].
      eapply (reads_entry x (t :: tls) l more _ inner (Describe es :: bs)); [exact P|exact D|left; reflexivity| |exact Rd| |reflexivity].
      * left. split; [reflexivity|]. cbn [calm]. change (is_blank []) with true. cbv iota.
        destruct (He ltac:(discriminate)) as [_ (l1 & r1 & -> & Sh & _)]. cbn [app calm]. destruct Sh as (Bl & Sh). rewrite Bl. split; assumption.
      * apply (reads_blanks [[]]); [repeat constructor|exact Rs].
Qed.
Lemma desc_emits : forall p q cs, good p (Node NDescriptionList q cs) -> emits p (Node NDescriptionList q cs).
Proof.
  intros p q cs G next s s' C _ E _. inversion G as [| | | | | | | | |k ? ? Nc Ge]; subst. cbn [serialize] in E. cbv zeta in E.
  destruct (entries_run k cs _ (kids_next U PN ENT o B src ends_nl checks cs) true s s' C Ge E) as (Cx & ls & es & O & S & Ch & _ & He & Qs & Rd).
  destruct (He Nc) as [La (l & r & El & Hd)]. split; [exact Cx|]. exists ls, (Describe es). eexists. split; [|split; [exact O|]].
  - constructor; try discriminate.
    + split; [exists l, r; split; [exact El|exact Hd]|]. intros rest bs (Bn & Ca & Ea) R. apply Rd; assumption.
    + constructor. exact S.
    + exact Ch.
    + intros [K|K]; [apply (Qs K)|destruct K].
    + exact La.
    + intros K _. apply (Qs K). exact Nc.
    + intros [].
    + intros ? [].
    + apply spc_other. exact Logic.I.
  - cbn [is_paragraph node_value andb orb app]. reflexivity.
Qed.
End Describe.
