(** Lists and their items, continuing [StructProof]. *)
From Coq Require Import Bool Arith NArith Lia ZifyBool ZifyNat ZifyN String List.
From Verif Require Import Base BaseFacts WrapModel SpecWrap WrapProof OptsModel CodeModel HeadingModel TableModel AstModel StateModel InlineModel WarnModel SerModel
  SpecCode SpecHeading SpecRefs SpecBlocks SpecEnd SpecStructure SpecGaps SpecState SpecContext StateProof SerFacts DecFacts DecRead HeadingProof EndProof CodeProof BlocksProof ParaProof NestProof LeafProof PropsBlocks
  StructShift StructProof StructDesc.
From Verif Require PropsContext.
Import ListNotations.

(** ** Markers *)
Lemma mark_stops : forall h m w t more, item_mark h m w -> begins_dark t -> unruled m t ->
  match m with BulletOf _ => forallb (fun c => ceq c c_dash || ceq c c_colon || ceq c c_pipe || is_blank_char c) t = false | NumberOf ds _ => is_one ds = true end ->
  stops ((h ++ t) :: more).
Proof.
  intros h m w t more H D U X. destruct (mark_line h m w t H U ltac:(auto)) as (Sh & _ & (s & Mg & Ru & Ra & Sq & Mk) & _). right. exists s.
  split; [exact Mg|]. split; [apply Sh|].
  destruct (mark_shape h m w H) as (a & s0 & b & Eh & A & B & Ew & (c & r & Es & Dc & K & _) & Mks & _ & Mc).
  assert (Ess : s = s0 ++ spaces b ++ t).
  { rewrite Eh, <- !app_assoc in Mg. rewrite margin_spaces in Mg; [injection Mg as <-; reflexivity|exact A|]. rewrite Es. cbn [app]. eexists _, _. split; [reflexivity|exact Dc]. }
  destruct D as (y & t' & Et & Dy).
  assert (Nc : N.eqb c 61 = false /\ ceq c c_lt = false /\ ceq c c_colon = false /\ ceq c c_tilde = false /\ ceq c c_lbr = false).
  { destruct K as [K|K].
    - unfold is_bullet in K. rewrite !orb_true_iff, !ceq_true in K. destruct K as [[->| ->]| ->]; repeat split.
    - unfold is_ascii_digit in K. split; [apply N.eqb_neq; intros ->; discriminate K|]. repeat split; apply ceq_false; intros ->; discriminate K. }
  destruct Nc as (N1 & N2 & N3 & N4 & N5).
  split; [|split; [|split]].
  - unfold underline. assert (E : s = (s0 ++ spaces b) ++ y :: t') by (rewrite Ess, Et, <- app_assoc; reflexivity). rewrite E.
    destruct (drop_while_end_stop is_blank_char (s0 ++ spaces b) y t' (dark_not_blank y Dy)) as (b' & b2 & -> & _).
    rewrite Es. cbn [app]. unfold read_underline. rewrite N1. cbn [andb]. destruct (N.eqb c 45); [|reflexivity]. cbn [andb].
    destruct (forallb (N.eqb 45) _) eqn:F; [|reflexivity]. rewrite !forallb_app in F. destruct b as [|b]; [clear - B; lia|]. cbn [spaces repc repeat forallb] in F.
    rewrite !andb_true_iff in F. destruct F as [[_ [F _]] _]. discriminate.
  - unfold strange. rewrite Ess, Es. cbn [app]. unfold html_line, details_line, note_line. rewrite N2, N3, N4. cbn [andb orb].
    replace (starts_with (lit "[^") (c :: r ++ spaces b ++ t)) with false; [reflexivity|]. symmetry. destruct (starts_with _ _) eqn:Q; [|reflexivity].
    apply starts_with_true in Q. destruct Q as [z Q]. injection Q as -> _. discriminate N5.
  - unfold delimiter_row. apply andb_false_iff. left. rewrite Ess, !forallb_app. destruct m as [c0|ds d].
    + rewrite X, !andb_false_r. reflexivity.
    + apply andb_false_iff. left. rewrite Es. cbn [forallb]. apply andb_false_iff. left.
      assert (Dg : is_ascii_digit c = true).
      { destruct K as [K|K]; [|exact K]. specialize (Mks [] eq_refl). rewrite Es in Mks. cbn [app marker_of] in Mks. rewrite K in Mks.
        destruct (blank_or_end (r ++ [])); discriminate. }
      rewrite (dark_not_blank c Dc), orb_false_r. unfold is_ascii_digit in Dg. rewrite !orb_false_iff. repeat split; apply ceq_false; intros ->; discriminate Dg.
  - unfold interrupts. rewrite Ess. rewrite Mks by (destruct b; [clear - B; lia|reflexivity]).
    assert (Bl : is_blank (spaces b ++ t) = false) by (rewrite is_blank_spaces, Et; unfold is_blank; cbn [forallb]; rewrite (dark_not_blank y Dy); reflexivity).
    rewrite Bl. destruct m; [|rewrite X]; cbn [negb andb]; rewrite orb_true_r; reflexivity.
Qed.
Lemma mark_plain : forall h m w t, item_mark h m w -> quote_sort_of (h ++ t) = Plain_quote /\ h <> [] /\ Forall line_char h /\ tabbed (h ++ t) = false.
Proof.
  intros h m w t H. destruct (mark_shape h m w H) as (a & s0 & b & Eh & A & B & Ew & (c & r & Es & Dc & K & _) & _).
  assert (Nc : c <> c_lbr /\ c <> c_tab /\ c <> c_sp).
  { destruct K as [K|K]; [unfold is_bullet in K; rewrite !orb_true_iff, !ceq_true in K; destruct K as [[->| ->]| ->]; repeat split; discriminate|].
    unfold is_ascii_digit in K. repeat split; intros ->; discriminate K. }
  destruct Nc as (N1 & N2 & N3). split; [|split; [|split]].
  - unfold quote_sort_of. replace (starts_with (lit "[!") (h ++ t)) with false; [reflexivity|]. symmetry. destruct (starts_with _ _) eqn:Q; [|reflexivity].
    apply starts_with_true in Q. destruct Q as [z Q]. rewrite Eh, Es in Q. destruct a; [|discriminate Q]. cbn in Q. injection Q as -> _. destruct (N1 eq_refl).
  - rewrite Eh, Es. destruct a; discriminate.
  - inversion H; subst.
    + apply Forall_app. split; [apply spaces_chars|]. apply Forall_app. split; [|apply spaces_chars]. constructor; [|constructor].
      unfold is_bullet in *. rewrite !orb_true_iff, !ceq_true in *. destruct H0 as [[->| ->]| ->]; split; discriminate.
    + apply Forall_app. split; [apply spaces_chars|]. apply Forall_app. split; [|apply spaces_chars]. apply Forall_app. split.
      * eapply Forall_impl; [|exact H0]. intros x X. unfold is_ascii_digit in X. split; intros ->; discriminate X.
      * constructor; [|constructor]. destruct H2 as [->| ->]; split; discriminate.
  - rewrite Eh, <- !app_assoc, tabbed_spaces, Es. unfold tabbed. cbn [app]. rewrite run_len_no by (intros r' Q; injection Q as Q _; congruence). cbn [skipn].
    apply ceq_false. exact N2.
Qed.
Lemma odd_mod : forall d, Nat.odd d = (d mod 2 =? 1).
Proof.
  intro d. destruct (Nat.Even_or_Odd d) as [[k ->]|[k ->]].
  - rewrite (Nat.odd_mul 2 k). rewrite (Nat.mul_comm 2 k), Nat.mod_mul by lia. reflexivity.
  - rewrite (Nat.add_comm (2 * k) 1), Nat.odd_add_mul_2. rewrite (Nat.mul_comm 2 k), Nat.mod_add by lia. reflexivity.
Qed.
Lemma dec_short : forall i, i <= 99 -> List.length (dec i) <= 2.
Proof.
  assert (H : forallb (fun i => List.length (dec i) <=? 2) (seq 0 100) = true) by (vm_compute; reflexivity).
  intros i L. rewrite forallb_forall in H. apply Nat.leb_le. apply H. apply in_seq. lia.
Qed.

Lemma ind_twice : forall j w ls, map (ind j) (map (ind w) ls) = map (ind (j + w)) ls.
Proof.
  intros j w ls. rewrite map_map. apply map_ext. intros [|c l]; [reflexivity|]. rewrite !ind_cons by (try discriminate; destruct w; discriminate).
  rewrite app_assoc. unfold spaces. rewrite <- repc_app. reflexivity.
Qed.
Lemma ind_keeps : forall w ls, Forall (fun l => tabbed l = false) (map (ind w) ls) -> Forall (fun l => tabbed l = false) ls.
Proof.
  intros w ls F. rewrite Forall_map in F. eapply Forall_impl; [|exact F]. intros [|c l] T; [reflexivity|]. rewrite ind_cons, tabbed_spaces in T by discriminate. exact T.
Qed.
Lemma map_ind_zero : forall ls, map (ind 0) ls = ls.
Proof. intro ls. rewrite <- (map_id ls) at 2. apply map_ext. intro l. apply ind_zero. Qed.
Lemma trim_ind : forall w l, l <> [] -> trim_end l = l -> trim_end (ind w l) = ind w l.
Proof.
  intros w l N T. destruct (trim_end_last l) as [Z|(a & e & Q & Z)]; [congruence|]. rewrite T in Q. subst l. rewrite ind_cons by exact N.
  rewrite app_assoc. apply trim_end_snoc_id. exact Z.
Qed.

Section Lists.
Variable U : Uni.
Variable PN : list (str * str).
Variable ENT : str -> option str.
Variable o : Options.
Variable B : backend.
Variable src : list str.
Variable ends_nl : bool.
Variable checks : bool.
Hypothesis cols : four_columns o.
Notation ser := (serialize U PN ENT o B src ends_nl checks).
Notation good := (SpecStructure.good U PN ENT o B src).
Notation good_item := (SpecStructure.good_item U PN ENT o B src).
Notation same := (SpecStructure.same U PN ENT o B src).
Notation same_item := (SpecStructure.same_item U PN ENT o B src).
Notation para_text := (SpecStructure.para_text U ENT o src).
Notation wrote := (StructProof.wrote U PN ENT o B src).
Notation emits := (StructProof.emits U PN ENT o B src ends_nl checks).
Notation kids_of := (StructProof.kids_of U PN ENT o B src ends_nl checks).

Definition mk (kind : list_kind) (d i : nat) : marker :=
  match kind with
  | Bullet => BulletOf (unordered_marker_char (unordered_marker o))
  | Ordered => NumberOf (dec i) (if d mod 2 =? 1 then ordered_marker_char (odd_level_marker o) else ordered_marker_char (even_level_marker o))
  end.
Lemma mk_first : forall kind d, mk kind d 1 = list_marker o kind d.
Proof.
  intros [|] d; unfold mk, list_marker; [destruct (unordered_marker o); reflexivity|]. rewrite odd_mod. f_equal.
  destruct (d mod 2 =? 1); [destruct (odd_level_marker o)|destruct (even_level_marker o)]; reflexivity.
Qed.
Lemma mk_same : forall kind d i j, same_kind (mk kind d i) (mk kind d j) = true.
Proof. intros [|] d i j; apply ceq_refl. Qed.
Record ctx_list (k d : nat) (kind : list_kind) (tight : bool) (i : nat) (c : ctx) : Prop := {
  cl_type : list_type c = Some kind;
  cl_tight : list_tight c = tight;
  cl_index : list_item_index c = i;
  cl_quote : in_block_quote c = negb (k =? 0);
  cl_prefix : blockquote_prefix c = quote_marks k;
  cl_depth : list_depth c = S d;
  cl_details : in_description_details c = false;
  cl_first : description_details_first_list c = false;
  cl_indent : list_item_indent c = spaces (4 * d);
  cl_outer : blockquote_outer_indent c = [];
  cl_entry : blockquote_entry_list_depth c = 0
}.
Definition roomy (kind : list_kind) (j : nat) : Prop := match kind with Bullet => leading_spaces o + j <= 3 | Ordered => j <= 3 end.
Lemma roomy_none : forall kind, roomy kind 0.
Proof. intros [|]; cbn [roomy]; destruct cols; lia. Qed.
Lemma item_mark_of : forall k d kind tight i c j, ctx_list k d kind tight i c -> 1 <= i -> (kind = Ordered -> i <= 99) -> roomy kind j ->
  item_mark (spaces j ++ item_marker o c) (mk kind (S d) i) (j + 4).
Proof.
  intros k d kind tight i c j [] L Lo Rj. destruct cols as [Fb Ft Fi Fo]. unfold item_marker. rewrite cl_type0, cl_details0, cl_depth0, cl_index0. cbn [andb].
  destruct kind.
  - cbn [roomy] in Rj. unfold mk. rewrite app_assoc. unfold spaces at 1 2. rewrite <- repc_app. fold (spaces (j + leading_spaces o)).
    replace (j + 4) with (j + leading_spaces o + 1 + trailing_spaces o) by lia. apply bullet_mark; try lia. destruct (unordered_marker o); reflexivity.
  - cbv zeta. rewrite Fo. pose proof (dec_short i (Lo eq_refl)) as Ls. pose proof (dec_nonempty i) as Ln. pose proof (DecFacts.dec_digits i) as Dd. unfold DecFacts.is_digit_str in Dd.
    assert (Lb : byte_len (dec i) = List.length (dec i)).
    { apply (PropsContext.digits_byte_len ENT). eapply Forall_impl; [|exact Dd]. intros x X. unfold is_ascii_digit in X. lia. }
    rewrite Lb. assert (L1 : 1 <= List.length (dec i)) by (destruct (dec i); [congruence|cbn; lia]).
    set (tr := Nat.max (4 - (List.length (dec i) + 1)) 1). assert (T : tr = 3 - List.length (dec i)) by (unfold tr; lia).
    cbn [roomy] in Rj. unfold mk. replace (j + 4) with (j + (List.length (dec i) + 1) + tr) by lia.
    set (mc := if S d mod 2 =? 1 then _ else _).
    pose proof (number_mark j (dec i) mc tr) as N. rewrite <- (app_assoc (dec i)) in N. apply N; try lia; [exact Dd|].
    unfold mc. destruct (S d mod 2 =? 1); [destruct (odd_level_marker o)|destruct (even_level_marker o)]; auto.
Qed.
Lemma item_head_eq : forall k d kind tight i c task, ctx_list k d kind tight i c -> k <= 1 ->
  item_head o c task = (if negb tight && (1 <? i) then [c_nl] else []) ++ lead (At 0 k d) ++ item_marker o c
    ++ match task with Some (Some _) => lit "[x] " | Some None => lit "[ ] " | None => [] end.
Proof.
  intros k d kind tight i c task [] K. destruct cols as [Fb Ft Fi Fo]. unfold item_head. rewrite cl_tight0, cl_index0, cl_quote0, cl_details0, cl_first0, cl_depth0. cbv zeta. cbn [andb].
  f_equal. unfold lead. cbn [outer marks inner]. change (spaces (4 * 0)) with (@nil char). cbn [app]. rewrite <- !app_assoc. f_equal.
  { destruct k as [|[|k]]; [reflexivity|reflexivity|lia]. }
  f_equal. assert (W : item_indent_width o c = 4) by (unfold item_indent_width; rewrite cl_type0; destruct kind; assumption). rewrite W.
  destruct d as [|d]; [reflexivity|]. replace (1 <? S (S d)) with true by lia. f_equal; lia.
Qed.
Lemma item_base_eq : forall k d kind tight i c, ctx_list k d kind tight i c -> item_base_indent o c = Ok (spaces (4 * S d)).
Proof.
  intros k d kind tight i c []. destruct cols as [Fb Ft Fi Fo]. unfold item_base_indent. rewrite cl_details0, cl_depth0. cbv zeta. cbn [andb].
  assert (W : item_indent_width o c = 4) by (unfold item_indent_width; rewrite cl_type0; destruct kind; assumption). rewrite W.
  assert (M : marker_width o c = 4) by (unfold marker_width; rewrite cl_type0; destruct kind; lia). rewrite M.
  destruct d as [|d]; [reflexivity|]. replace (1 <? S (S d)) with true by lia. f_equal. unfold spaces. rewrite <- repc_app. f_equal. lia.
Qed.

(** ** The children of an item *)
Definition fin (n : node) : str := if is_paragraph n then [c_nl] else [].
Definition is_list (n : node) : bool := match node_value n with NList _ _ => true | _ => false end.
Lemma child_step : forall k d pn c next s s', ctx_at (At 0 k (S d)) (cx s) -> good (At 0 k (S d)) c ->
  emits (At 0 k (S d)) c ->
  k = 0 \/ is_paragraph pn = true /\ is_list c = true /\ ~ source_gap pn c ->
  item_children o B (spaces (4 * S d)) (Some pn) [(c, ser next c)] s = Ok s' ->
  cx s' = cx s /\ exists (blanks ls : list str) b Y, blanks = repeat ([] : str) (gap_lines pn c) /\ wrote (At 0 k (S d)) c ls b /\ output s' = output s ++ Y
    /\ Y ++ fin c = fin pn ++ text_of (map (lf (At 0 k (S d))) (blanks ++ ls))
    /\ (blanks = [] -> is_paragraph pn = true /\ is_list c = true /\ ~ source_gap pn c).
Proof.
  intros k d pn c next s s' C G Em Kk E. cbn [item_children] in E. apply seqa_ok in E. destruct E as (s1 & E & E0). injection E0 as <-.
  assert (Nh : is_heading c = true -> False) by (intro H; eapply good_inner; [exact G|congruence|exact H]).
  assert (Run : forall e m X ls, output m = output s ++ e -> (output s1 = output m ++ X) ->
     forall blanks, e = fin pn ++ text_of (map (lf (At 0 k (S d))) blanks) -> X ++ fin c = text_of (map (lf (At 0 k (S d))) ls) ->
     output s1 = output s ++ (e ++ X) /\ (e ++ X) ++ fin c = fin pn ++ text_of (map (lf (At 0 k (S d))) (blanks ++ ls))).
  { intros e m X ls Om Ox blanks Ee Ex. split; [rewrite Ox, Om, app_assoc; reflexivity|]. rewrite <- app_assoc, Ex, Ee, map_app, text_of_app, <- app_assoc. reflexivity. }
  assert (Bt : k = 0 -> forall n, text_of (map (lf (At 0 k (S d))) (repeat [] n)) = repc c_nl n).
  { intros -> n. induction n as [|n IH]; [reflexivity|]. cbn [repeat map]. rewrite text_of_cons, IH. rewrite lf_nil by reflexivity. reflexivity. }
  inversion G as [? ? ? q cs x evs|?|? ? info literal q cs Kd Sv|?|? ? q cs Kd|? ? a q cs Kd|? ? kind tight q cs Kd Nc| | |]; subst; cbn [node_value] in E.
  - (* paragraph *)
    destruct Kk as [->|[_ [Kl _]]]; [|discriminate]. apply seqa_ok in E. destruct E as (m & E1 & E2). apply seqa_ok in E1. destruct E1 as (m0 & E0 & E1).
    unfold get in E1. injection E1 as <-. injection E0 as <-. 
    match type of E2 with ser _ _ ?m = _ => assert (C2 : ctx_at (At 0 0 (S d)) (cx m)) by exact C; assert (Hhd : is_heading (Node NParagraph q cs) = true -> proper_nouns m = [] /\ common_nouns m = []) by discriminate end.
    destruct (Em _ _ _ C2 Hhd E2 ltac:(discriminate)) as (Cx & ls & b & X & W & Ox & Ex). split; [exact Cx|]. cbn [is_paragraph node_value andb inner Nat.eqb negb] in Ex.
    cbn [cx set_output output] in Ox. rewrite (ca_quote _ _ C) in Ox. cbn [marks Nat.eqb negb app] in Ox.
    set (n := if is_paragraph pn then 1 else match node_value pn with NCodeBlock _ _ | NList _ _ => 1 | _ => 2 end).
    set (e := if match node_value pn with NCodeBlock _ _ | NList _ _ => true | _ => false end then [c_nl] else [c_nl; c_nl]) in *.
    assert (Ee : e = fin pn ++ repc c_nl n).
    { unfold e, fin, n. unfold is_paragraph. destruct (node_value pn); reflexivity. }
    exists (repeat [] n), ls, b, (e ++ spaces (4 * S d) ++ X). split; [f_equal; unfold n, gap_lines, is_paragraph; cbn [node_value]; destruct (node_value pn); reflexivity|]. split; [exact W|].
    split; [rewrite Ox, <- !app_assoc; reflexivity|]. split.
    + rewrite map_app, text_of_app, Bt by reflexivity. rewrite <- !app_assoc, (app_assoc (fin pn)), <- Ee. f_equal. rewrite <- Ex. reflexivity.
    + unfold n. destruct (is_paragraph pn); [discriminate|]. destruct (node_value pn); discriminate.
  - (* code *)
    destruct Kk as [->|[_ [Kl _]]]; [|discriminate]. unfold get in E. apply seqa_ok in E. destruct E as (m & E1 & E2). injection E1 as <-.
    rewrite (ca_quote _ _ C) in *. cbn [marks Nat.eqb negb app] in *.
    assert (Cx : cx s1 = cx s).
    { unfold code_act, get in E2. destruct (code_block_indented _ _ _ _ _ _ _) as [text eff]. apply seqa_ok in E2. destruct E2 as (m & E1 & E).
      apply seqa_ok in E. destruct E as (m2 & E2 & E3). injection E1 as <-. injection E2 as <-. injection E3 as <-. reflexivity. }
    split; [exact Cx|]. apply code_ok in E2. destruct E2 as [n O]. destruct (code_written o B n info literal) as (content & calls & failed & Sl & _ & _ & Wr).
    specialize (Wr (4 * S d)). pose proof (code_wrote _ _ _ _ _ _ _ _ _ _ _ _ _ _ _ Sl G) as W.
    exists (repeat [] (if is_paragraph pn then 1 else 2)), (code_lines o (block_info o info) content), (SpecBlocks.Code (block_info o info) (cm_lines content)).
    eexists. split; [f_equal; unfold gap_lines, is_paragraph; cbn [node_value]; destruct (node_value pn); reflexivity|]. split; [exact W|]. split; [rewrite O; cbn [output set_output]; rewrite <- app_assoc; reflexivity|]. split.
    + rewrite map_app, text_of_app, Bt by reflexivity. cbn [fin is_paragraph node_value]. unfold fin at 1. cbn [is_paragraph node_value]. rewrite app_nil_r.
      transitivity ([c_nl; c_nl] ++ (spaces (4 * S d) ++ fst (code_block_indented o B false n info literal (spaces (4 * S d))))); [reflexivity|]. rewrite Wr. unfold fin. 
      replace (map (lf (At 0 0 (S d))) (code_lines o (block_info o info) content)) with (map (ind (4 * S d)) (code_lines o (block_info o info) content)).
      2: { apply map_ext. intro l. unfold lf. cbn [outer marks inner quo_times]. rewrite ind_zero. reflexivity. }
      destruct (is_paragraph pn); reflexivity.
    + destruct (is_paragraph pn); discriminate.
  - (* quote *)
    destruct Kk as [->|[_ [Kl _]]]; [|discriminate]. apply seqa_ok in E. destruct E as (m & E1 & E). apply seqa_ok in E. destruct E as (m2 & E2 & E3).
    injection E1 as <-. unfold get in E2. injection E2 as <-. cbn [cx set_output] in E3. rewrite (ca_quote _ _ C) in E3. cbn [marks Nat.eqb negb] in E3. 
    match type of E3 with ser _ _ ?m = _ => assert (C2 : ctx_at (At 0 0 (S d)) (cx m)) by exact C; assert (Hhd : is_heading (Node NBlockQuote q cs) = true -> proper_nouns m = [] /\ common_nouns m = []) by discriminate end.
    destruct (Em _ _ _ C2 Hhd E3 ltac:(discriminate)) as (Cx & ls & b & X & W & Ox & Ex). split; [exact Cx|]. cbn [is_paragraph node_value andb] in Ex.
    cbn [cx set_output output] in Ox. rewrite app_nil_r in Ox.
    exists (repeat [] (if is_paragraph pn then 1 else 2)), ls, b, ([c_nl; c_nl] ++ X). split; [f_equal; unfold gap_lines, is_paragraph; cbn [node_value]; destruct (node_value pn); reflexivity|]. split; [exact W|].
    split; [rewrite Ox, <- !app_assoc; reflexivity|]. split.
    + rewrite map_app, text_of_app, Bt by reflexivity. unfold fin at 1. cbn [is_paragraph node_value]. rewrite app_nil_r, Ex. unfold fin. destruct (is_paragraph pn); reflexivity.
    + destruct (is_paragraph pn); discriminate.
  - (* alert *)
    destruct Kk as [->|[_ [Kl _]]]; [|discriminate]. apply seqa_ok in E. destruct E as (m & E1 & E). apply seqa_ok in E. destruct E as (m2 & E2 & E3).
    injection E1 as <-. unfold get in E2. injection E2 as <-. cbn [cx set_output] in E3. rewrite (ca_quote _ _ C) in E3. cbn [marks Nat.eqb negb] in E3. 
    match type of E3 with ser _ _ ?m = _ => assert (C2 : ctx_at (At 0 0 (S d)) (cx m)) by exact C; assert (Hhd : is_heading (Node (NAlert a) q cs) = true -> proper_nouns m = [] /\ common_nouns m = []) by discriminate end.
    destruct (Em _ _ _ C2 Hhd E3 ltac:(discriminate)) as (Cx & ls & b & X & W & Ox & Ex). split; [exact Cx|]. cbn [is_paragraph node_value andb] in Ex.
    cbn [cx set_output output] in Ox. rewrite app_nil_r in Ox.
    exists (repeat [] (if is_paragraph pn then 1 else 2)), ls, b, ([c_nl; c_nl] ++ X). split; [f_equal; unfold gap_lines, is_paragraph; cbn [node_value]; destruct (node_value pn); reflexivity|]. split; [exact W|].
    split; [rewrite Ox, <- !app_assoc; reflexivity|]. split.
    + rewrite map_app, text_of_app, Bt by reflexivity. unfold fin at 1. cbn [is_paragraph node_value]. rewrite app_nil_r, Ex. unfold fin. destruct (is_paragraph pn); reflexivity.
    + destruct (is_paragraph pn); discriminate.
  - (* list *)
    apply seqa_ok in E. destruct E as (m & E1 & E2). injection E1 as <-. set (cl := Node (NList kind tight) q cs) in *.
    match type of E2 with ser _ _ ?m = _ => assert (C2 : ctx_at (At 0 k (S d)) (cx m)) by exact C; assert (Hhd : is_heading cl = true -> proper_nouns m = [] /\ common_nouns m = []) by discriminate end.
    destruct (Em _ _ _ C2 Hhd E2 ltac:(discriminate)) as (Cx & ls & b & X & W & Ox & Ex). split; [exact Cx|]. cbn [cl is_paragraph node_value andb] in Ex.
    cbn [cx set_output output] in Ox.
    set (gap := end_line (node_pos pn) + 1 <? start_line (node_pos cl)) in *.
    assert (Gp : gap = true <-> source_gap pn cl) by (unfold gap, source_gap; apply Nat.ltb_lt).
    set (n := (if is_paragraph pn then 0 else 1) + (if gap then 1 else 0)).
    exists (repeat [] n), ls, b, ((if gap then [c_nl; c_nl] else [c_nl]) ++ X). split; [f_equal; unfold n, gap_lines, is_paragraph; fold gap; cbn [cl node_value]; destruct (node_value pn), gap; reflexivity|]. split; [exact W|].
    split; [rewrite Ox, <- !app_assoc; reflexivity|]. split.
    + rewrite map_app, text_of_app. unfold fin at 1. cbn [cl is_paragraph node_value]. rewrite app_nil_r, Ex.
      assert (Tb : text_of (map (lf (At 0 k (S d))) (repeat [] n)) = repc c_nl n).
      { destruct Kk as [->|[Kp [_ Kg]]]; [apply Bt; reflexivity|]. unfold n. rewrite Kp. destruct gap; [destruct Kg; apply Gp; reflexivity|reflexivity]. }
      rewrite Tb. unfold fin, n. destruct (is_paragraph pn), gap; reflexivity.
    + unfold n. intro Q. split; [destruct (is_paragraph pn); [reflexivity|discriminate]|]. split; [reflexivity|]. intro Sg. apply Gp in Sg. rewrite Sg in Q.
      destruct (is_paragraph pn); discriminate.
Qed.
Lemma follows_child : forall d c b rest cs bs, same d c b -> apart (c :: cs) -> Forall2 (same d) cs bs -> onward rest bs ->
  (is_paragraph c = true -> stops rest) -> (is_paragraph c = false -> blank_next rest) -> follows b rest bs.
Proof.
  intros d c b rest cs bs S A F On H1 H2. destruct (is_paragraph c) eqn:P.
  - destruct c as [v q ics]. unfold is_paragraph in P. cbn [node_value] in P. destruct v; try discriminate. inversion S; subst. cbn [follows]. apply H1. reflexivity.
  - eapply follows_next; eauto.
Qed.
Lemma blanks_onward : forall kb, Forall (fun l => is_blank l = true) kb -> onward kb [] /\ blank_next kb.
Proof.
  intros kb F. split; [rewrite <- (app_nil_r kb); apply onward_blanks; [exact F|apply onward_nil]|]. destruct F; [exact Logic.I|exact H].
Qed.
Lemma item_rest : forall k d cs ks, kids_of cs ks -> forall pn s s', ctx_at (At 0 k (S d)) (cx s) ->
  Forall (fun c => good (At 0 k (S d)) c /\ emits (At 0 k (S d)) c) cs -> apart cs -> joined (pn :: cs) ->
  (k = 0 \/ cs = [] \/ is_paragraph pn = true /\ exists c, cs = [c] /\ is_list c = true /\ ~ source_gap pn c) ->
  item_children o B (spaces (4 * S d)) (Some pn) ks s = Ok s' ->
  cx s' = cx s /\ exists ls bs Y, output s' = output s ++ Y /\ Y ++ fin (last cs pn) = fin pn ++ text_of (map (lf (At 0 k (S d))) ls)
    /\ Forall2 (same (S d)) cs bs /\ Forall (Forall line_char) ls /\ (k <> 0 \/ Forall (untabbed o B) cs -> Forall (fun l => tabbed l = false) ls) /\ (cs = [] -> ls = []) /\ (cs <> [] -> last ls [] <> [])
    /\ (cs <> [] -> ends_dark (last cs pn) -> trim_end (last ls []) = last ls []) /\ spaced_rest pn cs ls
    /\ forall kb, Forall (fun l => is_blank l = true) kb -> onward (ls ++ kb) bs
         /\ (is_paragraph pn = true -> stops (ls ++ kb)) /\ (is_paragraph pn = false -> blank_next (ls ++ kb)).
Proof.
  intros k d cs ks K. induction K as [|c [c' a] cs ks [nx Ea] K IH]; intros pn s s' C F A J Kk E.
  - injection E as <-. split; [reflexivity|]. exists [], [], []. split; [symmetry; apply app_nil_r|]. split; [unfold text_of; cbn [map flat_map last app]; rewrite app_nil_r; reflexivity|].
    split; [constructor|]. split; [constructor|]. split; [intros _; constructor|]. split; [reflexivity|]. split; [congruence|]. split; [congruence|]. split; [constructor|]. intros kb Bk. cbn [app].
    destruct (blanks_onward kb Bk) as [On Bn]. split; [exact On|]. split; intros _; [apply blank_stops|]; exact Bn.
  - injection Ea as -> ->. cbn [item_children] in E. apply seqa_ok in E. destruct E as (m & E1 & E2).
    assert (E1' : item_children o B (spaces (4 * S d)) (Some pn) [(c, ser nx c)] s = Ok m).
    { cbn [item_children]. apply seqa_ok. exists m. split; [exact E1|reflexivity]. }
    clear E1. inversion F as [|? ? [G Em] F']; subst.
    assert (Kc : k = 0 \/ is_paragraph pn = true /\ is_list c = true /\ ~ source_gap pn c).
    { destruct Kk as [->|[Kk|(Kp & c1 & Kk & Kl & Kg)]]; [auto|discriminate|]. injection Kk as -> _. auto. }
    destruct (child_step k d pn c nx s m C G Em Kc E1') as (Cm & bl & lc & b & Yc & Eg & W & Om & Ey & Eb).
    assert (Bb : blank_lines bl) by (rewrite Eg; apply Forall_forall; intros l I; apply repeat_spec in I; exact I).
    assert (Kr : k = 0 \/ cs = [] \/ is_paragraph c = true /\ exists c1, cs = [c1] /\ is_list c1 = true /\ ~ source_gap c c1).
    { destruct Kk as [->|[Kk|(Kp & c1 & Kk & Kl & Kg)]]; [auto|discriminate|]. injection Kk as _ ->. auto. }
    destruct A as [A0 A]. destruct J as [J0 J].
    destruct (IH c m s' ltac:(rewrite Cm; exact C) F' A J Kr E2) as (Cx & ls & bs & Y & O & Ef & S' & Ch & Tb & En & Nn & Te & Sp & Rd).
    split; [rewrite Cx; exact Cm|].
    assert (Lc : lc <> []) by exact (wrote_nonempty _ _ _ _ _ _ _ _ _ _ W).
    assert (Lcs : last (c :: cs) pn = last cs c).
    { clear. revert c. induction cs as [|x cs IH]; intro c; [reflexivity|]. change (last (x :: cs) pn = last (x :: cs) c). rewrite IH. cbn [last]. destruct cs as [|y cs]; [reflexivity|]. clear. revert x y c.
      induction cs as [|z cs IH]; intros x y c; [reflexivity|]. change (last (z :: cs) x = last (z :: cs) c). clear. revert z. induction cs as [|u cs IH]; intro z; [reflexivity|]. apply (IH u). }
    assert (Lr : forall kb, bl ++ lc ++ ls ++ kb = ((bl ++ lc) ++ ls) ++ kb) by (intro kb; rewrite <- !app_assoc; reflexivity).
    exists ((bl ++ lc) ++ ls), (b :: bs), (Yc ++ Y). split; [rewrite O, Om, app_assoc; reflexivity|]. split.
    { rewrite <- app_assoc. replace (last (c :: cs) pn) with (last cs c) by (symmetry; exact Lcs).
      rewrite Ef, app_assoc, Ey. rewrite (map_app _ (bl ++ lc) ls), text_of_app, <- app_assoc. reflexivity. }
    split; [constructor; [exact (wr_same _ _ _ _ _ _ _ _ _ _ W)|exact S']|].
    split. { apply Forall_app. split; [|exact Ch]. apply Forall_app. split; [|exact (wr_chars _ _ _ _ _ _ _ _ _ _ W)]. eapply Forall_impl; [|exact Bb]. intros l ->. constructor. }
    split. { intro K0. apply Forall_app. split; [|apply Tb; destruct K0 as [K0|K0]; [left; exact K0|right; inversion K0; assumption]].
      apply Forall_app. split; [|apply (wr_tabs _ _ _ _ _ _ _ _ _ _ W); destruct K0 as [K0|K0]; [left; exact K0|right; inversion K0; assumption]]. eapply Forall_impl; [|exact Bb]. intros l ->. reflexivity. }
    split; [discriminate|]. split.
    { intros _. destruct cs as [|c1 cs].
      - rewrite (En eq_refl), app_nil_r. rewrite last_app_ne by exact Lc. exact (wr_end _ _ _ _ _ _ _ _ _ _ W).
      - specialize (Nn ltac:(discriminate)). rewrite last_app_ne; [exact Nn|]. intros ->. apply Nn. reflexivity. }
    split.
    { intros _ Hd. rewrite Lcs in Hd. destruct cs as [|c1 cs].
      - rewrite (En eq_refl), app_nil_r. rewrite last_app_ne by exact Lc. apply (wr_trim _ _ _ _ _ _ _ _ _ _ W). exact Hd.
      - specialize (Nn ltac:(discriminate)). specialize (Te ltac:(discriminate) Hd). rewrite last_app_ne; [exact Te|]. intros ->. apply Nn. reflexivity. }
    split; [rewrite Eg, <- app_assoc; constructor; [exact (wr_spacing _ _ _ _ _ _ _ _ _ _ W)|exact Sp]|].
    clear Eg. intros kb Bk. destruct (Rd kb Bk) as (On & St & Bn). rewrite <- Lr.
    assert (Ob : onward (lc ++ ls ++ kb) (b :: bs)).
    { apply onward_block; [exact (wr_block _ _ _ _ _ _ _ _ _ _ W)| |exact (on_reads _ _ On)].
      eapply (follows_child (S d) c b _ cs bs); [exact (wr_same _ _ _ _ _ _ _ _ _ _ W)|split; assumption|exact S'|exact On|exact St|exact Bn]. }
    split; [apply onward_blanks; [apply blank_lines_blank; exact Bb|exact Ob]|].
    destruct bl as [|b0 bl].
    + destruct (Eb eq_refl) as (Ep & El & Eg). split; [|congruence]. intros _. cbn [app]. apply stops_app; [exact Lc|].
      inversion G as [| | | | | |? ? kind tight q ics Kd Nc| | |]; subst; try discriminate El. destruct ics as [|i is]; [congruence|].
      eapply (wr_full _ _ _ _ _ _ _ _ _ _ W); [reflexivity|]. eapply J0; [|exact Eg|reflexivity].
      destruct pn as [v qq cc]. unfold is_paragraph in Ep. cbn [node_value] in *. destruct v; try discriminate Ep. reflexivity.
    + inversion Bb; subst. split; intros _; [left|]; reflexivity.
Qed.

(** ** Items *)
Lemma set_index_list : forall k d kind tight i c, ctx_list k d kind tight i c -> ctx_list k d kind tight (S i) (set_index (list_item_index c + 1) c).
Proof. intros k d kind tight i c []. constructor; cbn [set_index list_type list_tight list_item_index in_block_quote blockquote_prefix list_depth in_description_details description_details_first_list list_item_indent blockquote_outer_indent blockquote_entry_list_depth]; auto. lia. Qed.
Lemma item_ctx : forall k d kind tight i c, ctx_list k d kind tight i c -> ctx_at (At 0 k (S d)) (set_item_indent (spaces (4 * S d)) c).
Proof.
  intros k d kind tight i c []. constructor; cbn [outer marks inner set_item_indent list_type list_tight list_item_index in_block_quote blockquote_prefix list_depth in_description_details description_details_first_list list_item_indent blockquote_outer_indent blockquote_entry_list_depth]; auto.
  rewrite cl_type0. split; discriminate.
Qed.
Lemma last_kids : forall cs ks, kids_of cs ks -> forall c, last_child ks = match cs with [] => None | _ => Some (last cs c) end.
Proof.
  intros cs ks K c. induction K as [|x [x' a] cs ks [nx Ea] K IH]; [reflexivity|]. injection Ea as -> ->. cbn [last_child].
  destruct K as [|y [y' a'] cs ks [ny Ea] K]; [reflexivity|]. injection Ea as -> ->. rewrite IH. reflexivity.
Qed.
Definition task_of (n : node) : option (option char) := match node_value n with NTaskItem symbol => Some symbol | _ => None end.
Definition box_text (t : option (option char)) : str := match t with Some (Some _) => lit "[x] " | Some None => lit "[ ] " | None => [] end.
Definition box_value (t : option (option char)) : option bool := match t with Some (Some _) => Some true | Some None => Some false | None => None end.
Lemma task_box_text : forall t l, t <> None -> begins_dark l -> task_box (box_text t ++ l) = Some (box_value t, l) /\ begins_dark (box_text t ++ l)
  /\ forallb (fun c => ceq c c_dash || ceq c c_colon || ceq c c_pipe || is_blank_char c) (box_text t ++ l) = false.
Proof.
  intros t l N (c & r & -> & D). pose proof (dark_not_blank c D) as Bc. destruct t as [[|]|]; [| |congruence].
  - split; [cbn; unfold is_blank_char in *; cbn in *; rewrite Bc; reflexivity|]. split; [eexists _, _; split; reflexivity|reflexivity].
  - split; [cbn; unfold is_blank_char in *; cbn in *; rewrite Bc; reflexivity|]. split; [eexists _, _; split; reflexivity|reflexivity].
Qed.
Record wrote_item (k d : nat) (kind : list_kind) (i : nat) (n : node) (hl : str) (ls : list str) : Prop := {
  wi_chars : Forall (Forall line_char) (hl :: ls);
  wi_tabs : k <> 0 \/ untabbed o B n -> Forall (fun l => tabbed l = false) (hl :: ls);
  wi_end : last (hl :: ls) [] <> [];
  wi_trim : ends_dark n -> trim_end (last (hl :: ls) []) = last (hl :: ls) [];
  wi_head : hl <> [] /\ forall j, roomy kind j -> shallow (ind j hl) /\ exists w c, item_line (ind j hl) = Some (mk kind (S d) i, w, c);
  wi_plain : quote_sort_of hl = Plain_quote;
  wi_full : node_children n <> [] -> i = 1 -> forall more, stops (hl :: more);
  wi_reads : exists it, same_item (S d) n it /\ forall j, roomy kind j -> j = 0 \/ Forall (fun l => tabbed l = false) ls -> forall rest bs, item_end rest -> reads rest bs ->
    reads (map (ind j) (hl :: ls) ++ rest) (add_item (mk kind (S d) i) it rest bs);
  wi_spacing : spaced_item n (hl :: ls)
}.
Lemma map_ind4 : forall ls, map (ind 4) ls = map in_item ls.
Proof. intro ls. apply map_ext. intros [|c l]; reflexivity. Qed.
Lemma item_run : forall k d kind tight i n next s s', k <= 1 -> ctx_list k d kind tight i (cx s) -> (kind = Ordered -> S i <= 99) ->
  good_item (At 0 k (S d)) n -> Forall (fun c => good (At 0 k (S d)) c -> emits (At 0 k (S d)) c) (node_children n) ->
  ser next n s = Ok s' ->
  ctx_list k d kind tight (S i) (cx s') /\ exists hl ls, wrote_item k d kind (S i) n hl ls
    /\ output s' = output s ++ (if negb tight && (0 <? i) then [c_nl] else []) ++ text_of (map (lf (At 0 k d)) (hl :: ls))
    /\ cx s' = set_index (list_item_index (cx s) + 1) (cx s).
Proof.
  intros k d kind tight i n next s s' Kk C Lo G He E.
  assert (En : list_item o B (task_of n) (combine (node_children n) (with_next ser (node_children n))) s = Ok s').
  { inversion G as [w p|? ? v p q ics cs V]; subst; [exact E|]. destruct V as [[-> _]|[symbol ->]]; exact E. }
  clear E. unfold list_item in En. apply seqa_ok in En. destruct En as (m & E1 & E). injection E1 as <-. unfold get in E.
  pose proof (set_index_list _ _ _ _ _ _ C) as C1. set (c1 := set_index (list_item_index (cx s) + 1) (cx s)) in *.
  apply seqa_ok in E. destruct E as (m & E1 & E). injection E1 as <-. cbn [cx set_cx set_output] in E. rewrite (item_base_eq _ _ _ _ _ _ C1) in E.
  apply seqa_ok in E. destruct E as (m & E1 & E). injection E1 as <-. apply seqa_ok in E. destruct E as (m & E1 & E). apply seqa_ok in E. destruct E as (m2 & E2 & E3).
  injection E2 as <-.
  match type of E1 with _ ?m0 = _ => set (s0 := m0) in E1 end.
  assert (C0 : ctx_at (At 0 k (S d)) (cx s0)) by (apply (item_ctx _ _ _ _ _ _ C1)).
  assert (O0 : output s0 = output s ++ item_head o c1 (task_of n)) by reflexivity.
  rewrite (item_head_eq _ _ _ _ _ _ _ C1 Kk) in O0. fold (box_text (task_of n)) in O0.
  change (1 <? S i) with (0 <? i) in O0. set (bl := if negb tight && (0 <? i) then [c_nl] else []) in *.
  pose proof (fun j => item_mark_of _ _ _ _ _ _ j C1 ltac:(lia) Lo) as Mj. pose proof (Mj 0 (roomy_none kind)) as Mk. cbn [spaces repc repeat app] in Mk. change (0 + 4) with 4 in Mk. set (h := item_marker o c1) in *. pose proof (mark_bullet _ _ _ Mk) as Mb.
  assert (Cx : cx m = cx s0 -> cx s' = c1).
  { intro Cm. assert (R : set_item_indent (list_item_indent c1) (cx s0) = c1) by (unfold s0, c1; destruct (cx s); reflexivity).
    destruct (last_child _) as [ln|]; [destruct (ends_with_newline_kind ln)|]; injection E3 as <-; cbn [cx set_output set_cx]; rewrite Cm; exact R. }
  assert (Hn : h <> [] /\ Forall line_char h) by (destruct (mark_plain h _ _ [] Mk) as (_ & ? & ? & _); auto).
  destruct Hn as [Hn Hc].
  inversion G as [w p|? ? v p q ics cs V Hk A J Gp Gc]; subst.
  - (* empty *)
    cbn [node_children combine with_next item_children last_child] in *. injection E1 as <-. specialize (Cx eq_refl). injection E3 as E3.
    split; [rewrite Cx; exact C1|]. exists h, []. cbn [task_of node_value box_text] in O0. rewrite app_nil_r in O0.
    split; [|split; [|exact Cx]].
    + destruct (mark_plain h _ _ [] Mk) as (Pl & _ & _ & Tb). rewrite app_nil_r in *. pose proof (mark_empty _ _ _ Mk) as Me.
      constructor; auto; try (constructor; auto; fail).
      * intros [].
      * split; [exact Hn|]. intros j J. rewrite ind_cons by exact Hn. destruct (mark_empty _ _ _ (Mj j J)) as ((w0 & I) & Sh & _). split; [exact Sh|eauto].
      * exists (None, []). split; [constructor; constructor|]. intros j J _ rest bs Ie R. cbn [map app]. rewrite ind_cons by exact Hn. apply reads_empty_item; [|exact Ie|exact R]. exact (mark_empty _ _ _ (Mj j J)).
      * apply sn_empty. destruct (mark_empty _ _ _ Mk) as (_ & (Bh & _) & _). exact Bh.
    + transitivity (output s0 ++ [c_nl]); [rewrite <- E3; reflexivity|]. rewrite O0. rewrite text_of_lead by exact Hn. change (text_of (map (lf (At 0 k d)) [])) with (@nil char).
      rewrite app_nil_r, <- !app_assoc. reflexivity.
  - (* content *)
    cbn [node_children] in *. set (pn := Node NParagraph q ics) in *. set (n := Node v p (pn :: cs)) in *.
    cbn [with_next combine item_children pn node_value] in E1. fold pn in E1. apply seqa_ok in E1. destruct E1 as (ma & E1 & E4). apply seqa_ok in E1. destruct E1 as (mb & Eb & E1). injection Eb as <-.
    inversion He as [|? ? _ He']; subst.
    assert (Op : ok_place (At 0 k (S d))) by (left; split; [reflexivity|]; cbn [marks]; lia).
    destruct (para_run U PN ENT o B src ends_nl checks _ _ _ _ _ _ Op C0 Gp E1) as (Ca & x & lp & X & T & P & Ua & Oa & Ex).
    cbn [inner Nat.eqb] in *.
    assert (Fg : Forall (fun c => good (At 0 k (S d)) c /\ emits (At 0 k (S d)) c) cs).
    { clear - Gc He'. induction Gc; inversion He'; subst; constructor; auto. }
    assert (Kk' : k = 0 \/ cs = [] \/ is_paragraph pn = true /\ exists c, cs = [c] /\ is_list c = true /\ ~ source_gap pn c).
    { destruct k as [|[|k]]; [auto| |lia]. right. destruct (Hk eq_refl) as [->|(c & -> & (kd & tg & Vc) & Sg)]; [auto|]. right. split; [reflexivity|]. exists c.
      split; [reflexivity|]. unfold is_list. rewrite Vc. auto. }
    destruct (item_rest k d cs _ (kids_next U PN ENT o B src ends_nl checks cs) pn ma m ltac:(rewrite Ca; exact C0) Fg A J Kk' E4)
      as (Cm & lr & bs & Y & Om & Ey & Sm & Chr & Tbr & Ne & Nn & Te & Sp & Rd).
    specialize (Cx ltac:(rewrite Cm; exact Ca)). split; [rewrite Cx; exact C1|].
    destruct lp as [|l0 tl]; [destruct (pl_nonempty _ _ P eq_refl)|].
    pose proof (Forall_inv (pl_plain _ _ P)) as (D0 & Op0 & _). pose proof (dark_margin l0 D0) as (_ & B0 & _).
    assert (Nl0 : l0 <> []) by (destruct D0 as (? & ? & -> & _); discriminate).
    pose proof (char_line _ (pl_chars _ _ P)) as Chp. inversion Chp as [|? ? Ch0 Cht]; subst.
    assert (Tbt : Forall (fun l => tabbed l = false) tl).
    { pose proof (pl_plain _ _ P) as Pp. inversion Pp as [|? ? _ Pt]; subst. eapply Forall_impl; [|exact Pt]. intros l (D & _). apply (dark_margin l D). }
    (* what is written *)
    assert (EX : X ++ [c_nl] = l0 ++ [c_nl] ++ text_of (map (lf (At 0 k (S d))) tl)).
    { rewrite (text_of_lead _ _ _ Nl0) in Ex. apply app_inv_head in Ex. exact Ex. }
    assert (EF : output s' = output m ++ fin (last cs pn)).
    { rewrite (last_kids (pn :: cs) _ (kids_next U PN ENT o B src ends_nl checks (pn :: cs)) pn) in E3.
      replace (last (pn :: cs) pn) with (last cs pn) in E3 by (destruct cs; reflexivity).
      assert (Kl : ends_with_newline_kind (last cs pn) = negb (is_paragraph (last cs pn))).
      { destruct cs as [|c cs]; [reflexivity|]. assert (I : In (last (c :: cs) pn) (c :: cs)) by (destruct (@exists_last _ (c :: cs)) as (a & z & Ez); [discriminate|]; rewrite Ez, last_last; apply in_app_iff; right; left; reflexivity).
        rewrite Forall_forall in Gc. specialize (Gc _ I). revert Gc. generalize (last (c :: cs) pn). intros z Gz. inversion Gz; reflexivity. }
      unfold fin. rewrite Kl in E3. destruct (is_paragraph (last cs pn)); cbn [negb] in E3; injection E3 as <-; cbn [output set_output set_cx]; [reflexivity|symmetry; apply app_nil_r]. }
    set (t := task_of n) in *. set (hl := h ++ box_text t ++ l0).
    assert (EO : output s' = output s ++ bl ++ text_of (map (lf (At 0 k d)) (hl :: map (ind 4) (tl ++ lr)))).
    { rewrite EF, Om, Oa, O0, <- !app_assoc. f_equal. f_equal.
      assert (Nh : hl <> []) by (unfold hl; destruct h; [congruence|discriminate]).
      rewrite (text_of_lead _ _ _ Nh). rewrite <- map_lf_item. unfold hl. rewrite <- !app_assoc. f_equal. f_equal. f_equal.
      rewrite Ey. unfold fin. cbn [pn is_paragraph node_value]. rewrite app_assoc, EX, <- !app_assoc, map_app, text_of_app. reflexivity. }
    (* how it is read *)
    assert (Bx : task_box (box_text t ++ l0) = Some (box_value t, l0) /\ begins_dark (box_text t ++ l0)
       /\ forallb (fun c => ceq c c_dash || ceq c c_colon || ceq c c_pipe || is_blank_char c) (box_text t ++ l0) = false
       /\ unruled (mk kind (S d) (S i)) (box_text t ++ l0)).
    { destruct V as [[-> Ub]|[symbol ->]]; unfold t, n; cbn [task_of node_value box_text box_value app].
      - split; [eapply unboxed_first; [exact P|apply Ub; exact T]|]. split; [exact D0|]. split; [|apply plain_unruled; assumption].
        destruct (forallb _ l0) eqn:Q; [|reflexivity]. apply opener_parts in Op0. destruct Op0 as (_ & _ & _ & _ & _ & _ & _ & H1 & _).
        apply (forallb_fw_dark _ (fun c => ceq c c_dash || ceq c c_colon || ceq c c_pipe)) in Q; [congruence|].
        intros c W Q'. apply orb_true_iff in Q'. destruct Q' as [Q'|Q']; [exact Q'|rewrite dark_not_blank in Q'; [discriminate|exact W]].
      - change (match symbol with Some _ => lit "[x] " | None => lit "[ ] " end) with (box_text (Some symbol)).
        change (match symbol with Some _ => Some true | None => Some false end) with (box_value (Some symbol)).
        destruct (task_box_text (Some symbol) l0 ltac:(discriminate) D0) as (T1 & T2 & T3). split; [exact T1|]. split; [exact T2|]. split; [exact T3|].
        destruct symbol; apply box_unruled; exact Mb. }
    destruct Bx as (Tb & Dx & Row & Ur).
    pose proof (fun j J => mark_head _ _ _ _ (Mj j J) Ur Dx) as Hh. destruct (mark_plain h _ _ (box_text t ++ l0) Mk) as (Plain & _ & _ & Tab).
    exists hl, (map (ind 4) (tl ++ lr)). split; [|split; [exact EO|exact Cx]].
    assert (Chl : Forall line_char hl).
    { unfold hl. apply Forall_app. split; [exact Hc|]. apply Forall_app. split; [|exact Ch0]. destruct t as [[|]|]; repeat (constructor; [split; discriminate|]); constructor. }
    constructor.
    + constructor; [exact Chl|]. apply Forall_map. eapply Forall_impl; [intros l; apply ind_chars|]. apply Forall_app. split; assumption.
    + intro K0. constructor; [exact Tab|]. apply Forall_map. eapply Forall_impl; [intros l; apply tabbed_ind|]. apply Forall_app. split; [exact Tbt|]. apply Tbr.
      destruct K0 as [K0|K0]; [left; exact K0|right]. assert (Ku : Forall (untabbed o B) (pn :: cs)) by (destruct V as [[-> _]|[symbol ->]]; [apply (untabbed_all o B NItem p)|apply (untabbed_all o B (NTaskItem symbol) p)]; auto). inversion Ku; assumption.
    + assert (Nl : last ((l0 :: tl) ++ lr) [] <> []).
      { destruct cs as [|c cs].
        - rewrite (Ne eq_refl), app_nil_r. pose proof (para_dark _ _ P) as Pd. destruct (@exists_last _ (l0 :: tl)) as (a & z & Ez); [discriminate|]. rewrite Ez in *. rewrite last_last.
          apply Forall_app in Pd. destruct Pd as [_ Pd]. exact (Forall_inv Pd).
        - specialize (Nn ltac:(discriminate)). rewrite last_app_ne; [exact Nn|]. intros Z. apply Nn. rewrite Z. reflexivity. }
      destruct (tl ++ lr) as [|z zs] eqn:Z.
      { cbn [map last]. unfold hl. destruct h; [congruence|discriminate]. }
      change (hl :: map (ind 4) (z :: zs)) with ([hl] ++ map (ind 4) (z :: zs)). rewrite last_app_ne by discriminate.
      cbn [app] in Nl. rewrite Z in Nl. change (l0 :: z :: zs) with ([l0] ++ z :: zs) in Nl. rewrite last_app_ne in Nl by discriminate.
      destruct (@exists_last _ (z :: zs)) as (a & y & Ey'); [discriminate|]. rewrite Ey' in *. rewrite last_last in Nl. rewrite map_app. cbn [map]. rewrite last_last.
      rewrite ind_cons by exact Nl. destruct y; [congruence|discriminate].
    + intro Hd. assert (Hd' : ends_dark (last cs pn)).
      { assert (Ku : forall x, ends_dark (last (pn :: cs) x)) by (destruct V as [[-> _]|[symbol ->]]; [apply (ends_dark_last NItem p)|apply (ends_dark_last (NTaskItem symbol) p)]; auto).
        specialize (Ku pn). destruct cs; exact Ku. }
      assert (Tl : trim_end (last ((l0 :: tl) ++ lr) []) = last ((l0 :: tl) ++ lr) [] /\ last ((l0 :: tl) ++ lr) [] <> []).
      { destruct cs as [|c cs].
        - rewrite (Ne eq_refl), app_nil_r. split; [exact (pl_end _ _ P)|]. pose proof (para_dark _ _ P) as Pd. destruct (@exists_last _ (l0 :: tl)) as (a & z & Ez); [discriminate|]. rewrite Ez in *. rewrite last_last.
          apply Forall_app in Pd. destruct Pd as [_ Pd]. exact (Forall_inv Pd).
        - specialize (Nn ltac:(discriminate)). specialize (Te ltac:(discriminate) Hd'). rewrite last_app_ne; [auto|]. intros Z. apply Nn. rewrite Z. reflexivity. }
      destruct Tl as [Tl Nl]. destruct (tl ++ lr) as [|z zs] eqn:Z.
      { cbn [app] in Tl, Nl. rewrite Z in Tl, Nl. cbn [map last] in *. unfold hl. rewrite app_assoc. destruct (trim_end_last l0) as [K|(a & e & Q & K)]; [congruence|]. rewrite Tl in Q. rewrite Q, app_assoc. apply trim_end_snoc_id. exact K. }
      change (hl :: map (ind 4) (z :: zs)) with ([hl] ++ map (ind 4) (z :: zs)). rewrite last_app_ne by discriminate.
      cbn [app] in Tl, Nl. rewrite Z in Tl, Nl. change (l0 :: z :: zs) with ([l0] ++ z :: zs) in Tl, Nl. rewrite last_app_ne in Tl, Nl by discriminate.
      destruct (@exists_last _ (z :: zs)) as (a & y & Ey'); [discriminate|]. rewrite Ey' in *. rewrite last_last in Tl, Nl. rewrite map_app. cbn [map]. rewrite last_last.
      apply trim_ind; assumption.
    + assert (Nh : hl <> []) by (unfold hl; destruct h; [congruence|discriminate]). split; [exact Nh|]. intros j Rj. rewrite ind_cons by exact Nh. unfold hl. rewrite app_assoc.
      destruct (Hh j Rj) as (Il & Sh & _). split; [exact Sh|eauto].
    + exact Plain.
    + intros _ I1 more. apply (mark_stops h _ _ _ more Mk Dx Ur). assert (i = 0) by lia. subst i. destruct kind; [exact Row|reflexivity].
    + exists (box_value t, Para (map words (segments x)) :: bs). split.
      { destruct V as [[-> _]|[symbol ->]]; unfold t, n; cbn [task_of node_value box_value].
        - constructor. constructor; [constructor; exact T|exact Sm].
        - destruct symbol; (apply (sm_task U PN ENT o B src (S d) (Some c)) || apply (sm_task U PN ENT o B src (S d) None)); (constructor; [constructor; exact T|exact Sm]). }
      intros j Rj Al rest bs' Ie R. cbn [map]. rewrite ind_twice. assert (Nh : hl <> []) by (unfold hl; destruct h; [congruence|discriminate]). rewrite ind_cons by exact Nh.
      unfold hl. rewrite app_assoc. cbn [app]. apply (reads_item (spaces j ++ h) _ (j + 4) _ _ l0); auto; try lia.
      * destruct Al as [->|Al]; [left; reflexivity|right]. exact (ind_keeps _ _ Al).
      * intros kb Bk. destruct (Rd kb Bk) as (On & St & _). rewrite <- app_assoc. change (l0 :: tl ++ lr ++ kb) with ((l0 :: tl) ++ lr ++ kb).
        apply (para_block _ _ P); [cbn [follows]; apply St; reflexivity|exact (on_reads _ _ On)].
    + assert (Wp : wrote (At 0 k (S d)) pn (l0 :: tl) (Para (map words (segments x)))) by (apply para_wrote; [exact T|exact P|exact Ua]).
      unfold hl. rewrite app_assoc, map_ind4. apply sn_blocks; [|exact (wr_spacing _ _ _ _ _ _ _ _ _ _ Wp)|exact Sp].
      destruct (mark_empty _ _ _ Mk) as (_ & (Bh & _) & _). unfold is_blank. rewrite forallb_app. unfold is_blank in Bh. rewrite Bh. reflexivity.
Qed.
(** ** Lists *)
Lemma items_run : forall k d kind tight cs ks, kids_of cs ks -> forall i s s', k <= 1 -> (k = 1 -> tight = true) -> ctx_list k d kind tight i (cx s) ->
  (kind = Ordered -> i + List.length cs <= 99) -> cs <> [] ->
  Forall (good_item (At 0 k (S d))) cs ->
  Forall (fun n => Forall (fun c => good (At 0 k (S d)) c -> emits (At 0 k (S d)) c) (node_children n)) cs ->
  children_acts ks s = Ok s' ->
  exists hl ls items, output s' = output s ++ (if negb tight && (0 <? i) then [c_nl] else []) ++ text_of (map (lf (At 0 k d)) (hl :: ls))
    /\ Forall2 (same_item (S d)) cs items
    /\ Forall (Forall line_char) (hl :: ls) /\ (k <> 0 \/ Forall (untabbed o B) cs -> Forall (fun l => tabbed l = false) (hl :: ls)) /\ last (hl :: ls) [] <> []
    /\ (forall n, ends_dark (last cs n) -> trim_end (last (hl :: ls) []) = last (hl :: ls) [])
    /\ (hl <> [] /\ forall j, roomy kind j -> shallow (ind j hl) /\ exists w c, item_line (ind j hl) = Some (mk kind (S d) (S i), w, c)) /\ quote_sort_of hl = Plain_quote
    /\ (forall n r, cs = n :: r -> node_children n <> [] -> i = 0 -> forall more, stops (hl :: more))
    /\ (forall j, roomy kind j -> j = 0 \/ Forall (fun l => tabbed l = false) (hl :: ls) ->
         forall rest bs, blank_next rest -> calm rest -> (forall m', next_item rest = Some m' -> same_kind (mk kind (S d) (S i)) m' = false) -> reads rest bs ->
         reads (map (ind j) (hl :: ls) ++ rest) (SpecBlocks.List (mk kind (S d) (S i)) items :: bs))
    /\ cx s' = set_index (list_item_index (cx s) + List.length cs) (cx s) /\ spaced_items tight cs (hl :: ls).
Proof.
  intros k d kind tight cs ks K. induction K as [|n [n' a] cs ks [nx Ea] K IH]; intros i s s' Kk Kt C Lo Nc G He E; [congruence|]. clear Nc.
  injection Ea as -> ->. unfold children_acts in E. cbn [map snd] in E. rewrite all_cons in E. apply seqa_ok in E. destruct E as (m & E1 & E2).
  inversion G as [|? ? G0 G']; subst. inversion He as [|? ? He0 He']; subst. cbn [List.length] in Lo.
  destruct (item_run k d kind tight i n nx s m Kk C ltac:(intro Q; specialize (Lo Q); lia) G0 He0 E1) as (C1 & hl & ls & W & Om & Cm).
  destruct (wi_reads _ _ _ _ _ _ _ W) as (it & Si & Ri). destruct (wi_head _ _ _ _ _ _ _ W) as (Nh & Sh).
  destruct cs as [|n2 cs].
  - inversion K; subst. injection E2 as <-. exists hl, ls, [it]. split; [exact Om|]. split; [constructor; [exact Si|constructor]|].
    split; [exact (wi_chars _ _ _ _ _ _ _ W)|]. split.
    { intro K0. apply (wi_tabs _ _ _ _ _ _ _ W). destruct K0 as [K0|K0]; [left; exact K0|right; inversion K0; assumption]. }
    split; [exact (wi_end _ _ _ _ _ _ _ W)|]. split; [intros n0 Hd; exact (wi_trim _ _ _ _ _ _ _ W Hd)|].
    split; [split; [exact Nh|exact Sh]|]. split; [exact (wi_plain _ _ _ _ _ _ _ W)|]. split.
    { intros n0 r Q Nn -> more. injection Q as <- _. apply (wi_full _ _ _ _ _ _ _ W Nn eq_refl). }
    split; [|split; [exact Cm|apply si_one; exact (wi_spacing _ _ _ _ _ _ _ W)]].
    intros j J Al rest bs Bn Ca Nx R. rewrite <- (add_item_new (mk kind (S d) (S i)) it rest bs Nx). apply Ri; [exact J|destruct Al as [Al|Al]; [left; exact Al|right; inversion Al; assumption]| |exact R].
    destruct rest as [|l r]; [exact Logic.I|]. left. split; [exact Bn|exact Ca].
  - destruct (IH (S i) m s' Kk Kt C1 ltac:(intro Q; specialize (Lo Q); cbn [List.length] in *; lia) ltac:(discriminate) G' He' E2)
      as (hl2 & ls2 & items & O2 & S2 & Ch2 & Tb2 & En2 & Te2 & (Nh2 & Sh2) & Pl2 & Fu2 & R2 & Cx2 & Sp2).
    set (bl := if negb tight && (0 <? S i) then [[]] else [] : list str).
    assert (Bb : Forall (fun l => is_blank l = true) bl) by (unfold bl; destruct (negb tight && (0 <? S i)); repeat constructor).
    assert (Tx : text_of (map (lf (At 0 k d)) (bl ++ hl2 :: ls2)) = (if negb tight && (0 <? S i) then [c_nl] else []) ++ text_of (map (lf (At 0 k d)) (hl2 :: ls2))).
    { unfold bl. destruct (negb tight && (0 <? S i)) eqn:Q; [|reflexivity]. cbn [app map]. rewrite text_of_cons.
      rewrite lf_nil; [reflexivity|]. cbn [marks]. destruct k as [|[|k]]; [reflexivity| |lia]. rewrite (Kt eq_refl) in Q. discriminate. }
    exists hl, (ls ++ bl ++ hl2 :: ls2), (it :: items). split.
    { rewrite O2, Om. change (hl :: ls ++ bl ++ hl2 :: ls2) with ((hl :: ls) ++ bl ++ hl2 :: ls2). rewrite (map_app _ (hl :: ls)), text_of_app, Tx, <- !app_assoc. reflexivity. }
    split; [constructor; assumption|].
    split. { change (hl :: ls ++ bl ++ hl2 :: ls2) with ((hl :: ls) ++ bl ++ hl2 :: ls2). apply Forall_app. split; [exact (wi_chars _ _ _ _ _ _ _ W)|].
      apply Forall_app. split; [|exact Ch2]. unfold bl. destruct (negb tight && (0 <? S i)); repeat constructor. }
    split. { intro K0. change (hl :: ls ++ bl ++ hl2 :: ls2) with ((hl :: ls) ++ bl ++ hl2 :: ls2). apply Forall_app.
      split; [apply (wi_tabs _ _ _ _ _ _ _ W); destruct K0 as [K0|K0]; [left; exact K0|right; inversion K0; assumption]|].
      apply Forall_app. split; [|apply Tb2; destruct K0 as [K0|K0]; [left; exact K0|right; inversion K0; assumption]]. unfold bl. destruct (negb tight && (0 <? S i)); repeat constructor. }
    split. { change (hl :: ls ++ bl ++ hl2 :: ls2) with ((hl :: ls) ++ bl ++ hl2 :: ls2). rewrite app_assoc, last_app_ne by discriminate. exact En2. }
    split. { intros n0 Hd. change (hl :: ls ++ bl ++ hl2 :: ls2) with ((hl :: ls) ++ bl ++ hl2 :: ls2). rewrite app_assoc, last_app_ne by discriminate. apply (Te2 n0). exact Hd. }
    split; [split; [exact Nh|exact Sh]|]. split; [exact (wi_plain _ _ _ _ _ _ _ W)|]. split.
    { intros n0 r Q Nn -> more. injection Q as <- _. apply (wi_full _ _ _ _ _ _ _ W Nn eq_refl). }
    split; [|split; [rewrite Cx2, Cm; cbn [List.length]; unfold set_index; destruct (cx s); cbn; f_equal; lia|]].
    2: { change (hl :: ls ++ bl ++ hl2 :: ls2) with ((hl :: ls) ++ bl ++ hl2 :: ls2). replace bl with (if tight then [] else [[]] : list str) by (unfold bl; destruct tight; reflexivity).
      apply si_more; [exact (wi_spacing _ _ _ _ _ _ _ W)|discriminate|exact Sp2]. }
    intros j J Al rest bs Bn Ca Nx R. destruct (Sh2 j J) as (Shj & w2 & c2 & Il2).
    change (hl :: ls ++ bl ++ hl2 :: ls2) with ((hl :: ls) ++ bl ++ hl2 :: ls2) in *.
    assert (Al1 : j = 0 \/ Forall (fun l => tabbed l = false) ls) by (destruct Al as [Al|Al]; [left; exact Al|right; apply Forall_app in Al; destruct Al as [Al _]; inversion Al; assumption]).
    assert (Al2 : j = 0 \/ Forall (fun l => tabbed l = false) (hl2 :: ls2)) by (destruct Al as [Al|Al]; [left; exact Al|right; apply Forall_app in Al; destruct Al as [_ Al]; apply Forall_app in Al; apply Al]).
    assert (Ij : map (ind j) bl = bl) by (unfold bl; destruct (negb tight && (0 <? S i)); reflexivity).
    assert (R' : reads (bl ++ map (ind j) (hl2 :: ls2) ++ rest) (SpecBlocks.List (mk kind (S d) (S (S i))) items :: bs)).
    { apply reads_blanks; [exact Bb|]. apply R2; auto. intros m' Q. specialize (Nx m' Q). destruct kind; exact Nx. }
    assert (Ni : next_item (bl ++ map (ind j) (hl2 :: ls2) ++ rest) = Some (mk kind (S d) (S (S i)))).
    { rewrite next_item_blanks by exact Bb. cbn [map app next_item]. pose proof Shj as (Bh & _). rewrite Bh, Il2. reflexivity. }
    rewrite (map_app (ind j) (hl :: ls)), (map_app (ind j) bl), Ij, <- !app_assoc.
    rewrite <- (add_item_more _ _ it items _ bs Ni (mk_same kind (S d) (S i) (S (S i)))). apply Ri; [exact J|exact Al1| |exact R'].
    unfold bl. destruct (negb tight && (0 <? S i)); cbn [map app].
    + left. split; [reflexivity|]. cbn [calm]. change (is_blank []) with true. cbv iota. pose proof Shj as (Bh & _). rewrite Bh. exact Shj.
    + right. split; [exact Shj|]. rewrite Il2. reflexivity.
Qed.
Lemma list_emits : forall p kind tight q cs, good p (Node (NList kind tight) q cs) ->
  (forall P, ok_place P -> Forall (fun n => Forall (fun c => good P c -> emits P c) (node_children n)) cs) ->
  emits p (Node (NList kind tight) q cs).
Proof.
  intros p kind tight q cs G H next s s' C _ E _. inversion G as [| | | | | |k d ? ? ? ? Kk Nc Lo Kt Gi| | |]; subst. cbn [serialize] in E. cbv zeta in E. unfold list_block, get in E.
  apply seqa_ok in E. destruct E as (m & E1 & E). apply seqa_ok in E. destruct E as (m2 & E2 & E). apply seqa_ok in E. destruct E as (m3 & E3 & E4).
  injection E1 as <-. injection E4 as <-. set (c1 := enter_list kind tight (map fst (combine cs (with_next ser cs))) (cx s)) in *.
  assert (C1 : ctx_list k d kind tight 0 c1).
  { destruct C. cbn [outer marks inner] in *. unfold c1, enter_list. constructor; cbn [list_type list_tight list_item_index in_block_quote blockquote_prefix list_depth in_description_details description_details_first_list list_item_indent blockquote_outer_indent blockquote_entry_list_depth]; auto. lia. }
  destruct (items_run k d kind tight cs _ (kids_next U PN ENT o B src ends_nl checks cs) 0 (set_cx c1 s) m2 Kk Kt C1 Lo Nc Gi (H (At 0 k (S d)) ltac:(left; cbn [outer marks inner]; lia)) E2)
    as (hl & ls & items & O & Si & Ch & Tb & En & Te & (Nh & Sh) & Pl & Fu & Rd & Cx & Sp).
  assert (m3 = m2) as -> by (destruct (list_depth (cx m2) =? 0); [discriminate|injection E3 as <-; reflexivity]).
  cbn [cx set_cx output] in *. split.
  { rewrite Cx. pose proof (ca_depth _ _ C) as Dc. unfold c1, enter_list, exit_list, set_index. destruct (cx s). cbn in *. f_equal. lia. }
  exists (hl :: ls), (SpecBlocks.List (mk kind (S d) 1) items), (text_of (map (lf (At 0 k d)) (hl :: ls))). split; [|split].
  - assert (Blk : forall j, roomy kind j -> j = 0 \/ Forall (fun l => tabbed l = false) (hl :: ls) -> block_lines (map (ind j) (hl :: ls)) (SpecBlocks.List (mk kind (S d) 1) items)).
    { intros j J Al. destruct (Sh j J) as (Shj & w & c & Il). split; [exists (ind j hl), (map (ind j) ls); split; [reflexivity|split; [exact Shj|eauto]]|].
      intros rest bs (Bn & Ca & Nx) R. apply Rd; assumption. }
    constructor; cbn [inner marks]; auto.
    + rewrite <- (map_ind_zero (hl :: ls)). apply Blk; [apply roomy_none|left; reflexivity].
    + rewrite mk_first. constructor. exact Si.
    + intros [K0|K0]; apply Tb; [left; exact K0|right]. exact (untabbed_all o B (NList kind tight) q cs Logic.I K0).
    + intros kd tg q' i is Q Ni. injection Q as _ _ _ ->. eapply Fu; [reflexivity|exact Ni|reflexivity].
    + intro Hd. apply (Te (Node NDocument q [])). apply (ends_dark_last (NList kind tight) q cs Logic.I Hd).
    + apply spc_list. exact Sp.
  - rewrite O. rewrite andb_false_r. reflexivity.
  - reflexivity.
Qed.

(** ** All blocks *)
Theorem good_emits : forall n p, ok_place p -> good p n -> emits p n.
Proof.
  assert (P : forall n, (forall p, ok_place p -> good p n -> emits p n) /\ (forall p, ok_place p -> Forall (fun c => good p c -> emits p c) (node_children n))).
  { induction n as [v q cs IH] using node_ind'.
    assert (IH1 : forall p, ok_place p -> Forall (fun c => good p c -> emits p c) cs).
    { intros p Op. eapply Forall_impl; [|exact IH]. intros c [H _] Gc. apply H; assumption. }
    assert (IH2 : forall p, ok_place p -> Forall (fun n => Forall (fun c => good p c -> emits p c) (node_children n)) cs).
    { intros p Op. eapply Forall_impl; [|exact IH]. intros c [_ H]. apply H; assumption. }
    assert (IH3 : forall p, Forall (good p) cs -> ok_place p -> Forall (emits p) cs).
    { intros p F Op. specialize (IH1 p Op). clear - F IH1. induction F; inversion IH1; subst; constructor; auto. }
    split; [|exact IH1]. intros p Op G. destruct v; try (exfalso; inversion G; fail).
    all: try (apply para_emits; assumption); try (apply code_emits; assumption); try (apply rule_emits; assumption); try (apply head_emits; assumption).
    all: try (apply table_emits; assumption); try (apply html_emits; assumption).
    all: try (apply quote_emits; assumption); try (apply alert_emits; assumption).
    all: try (apply desc_emits; assumption).
    apply list_emits; [exact G|exact IH2]. }
  intros n p Op G. apply P; assumption.
Qed.
End Lists.
