(** C25: every reference that is used is defined once. *)
From Coq Require Import Bool Arith NArith ZArith Lia ZifyBool ZifyNat ZifyN String List Permutation.
From Verif Require Import Base BaseFacts OptsModel WrapModel CodeModel TableModel HeadingModel AstModel StateModel
  InlineModel WarnModel SerModel SpecState SpecContext SpecDoc SpecRefs StateProof PropsState SerFacts PropsOrder SerBuilt OutputProof DocProof PropsDoc DocRun RefProof EscapeModel.
Import ListNotations.

(** ** Links in running text *)
Lemma spaced_app : forall a b, spaced (a ++ b) = spaced a ++ spaced b.
Proof. intros. apply map_app. Qed.
Lemma spaced_idem : forall s, spaced (spaced s) = spaced s.
Proof.
  intro s. unfold spaced. rewrite map_map. apply map_ext. intro c. destruct (N.eqb c 0) eqn:E; [reflexivity|]. rewrite E. reflexivity.
Qed.
Lemma spaced_replace : forall s, replace_char c_nul [c_sp] s = spaced s.
Proof. exact replace_char_map. Qed.
Lemma labelled_here : forall label a b, labelled (a ++ [c_lbr] ++ label ++ [c_rbr] ++ b) label.
Proof. intros label a b. exists (spaced a), (spaced b). rewrite !spaced_app. reflexivity. Qed.
Lemma labelled_inside : forall x label a b, labelled x label -> labelled (a ++ x ++ b) label.
Proof.
  intros x label a b (u & v & E). exists (spaced a ++ u), (v ++ spaced b). rewrite !spaced_app, E. repeat (rewrite <- !app_assoc; cbn [app]). reflexivity.
Qed.
Lemma labelled_spaced : forall x label, labelled x label -> labelled (spaced x) label.
Proof. intros x label (a & b & E). exists a, b. rewrite spaced_idem. exact E. Qed.

(** What the uses of a collector are about. *)
Definition shows (n : node) (w : W) : Prop := forall x evs r, w = Ok (x, evs) -> In (EvUse r) evs ->
  labelled x (ref_label r) /\ exists m, within m n /\ links_to m (ref_url r) (ref_title r).

Lemma shows_ret : forall n x, shows n (wret x).
Proof. intros n x y evs r E I. injection E as <- <-. destruct I. Qed.
Lemma shows_app : forall n a b, shows n a -> shows n b -> shows n (wapp a b).
Proof.
  intros n [[x e]|] [[y f]|] A B z evs r E I; try discriminate. injection E as <- <-. cbn [fst snd] in *. apply in_app_or in I. destruct I as [I|I].
  - destruct (A _ _ _ eq_refl I) as [L M]. split; [|exact M]. apply (labelled_inside _ _ [] y L).
  - destruct (B _ _ _ eq_refl I) as [L M]. split; [|exact M]. rewrite <- (app_nil_r y). apply labelled_inside. exact L.
Qed.
Lemma shows_bind : forall n a f, shows n a ->
  (forall x y evs, f x = Ok (y, evs) -> forall l, labelled x l -> labelled y l) -> (forall x, shows n (f x)) -> shows n (wbind a f).
Proof.
  intros n [[x e]|] f A K B z evs r E I; [|discriminate]. unfold wbind in E. cbn [rbind fst snd] in E.
  destruct (f x) as [[y g]|] eqn:F; [|discriminate]. injection E as <- <-. apply in_app_or in I. destruct I as [I|I].
  - destruct (A _ _ _ eq_refl I) as [L M]. split; [|exact M]. exact (K _ _ _ F _ L).
  - exact (B _ _ _ _ F I).
Qed.
Lemma shows_rbind : forall n A (r : res A) f, (forall x, shows n (f x)) -> shows n (rbind r f).
Proof. intros n A [x|] f H; [apply H|]. intros y evs r E. discriminate. Qed.
Lemma shows_cat : forall n l, Forall (shows n) l -> shows n (wcat l).
Proof. intros n l H. induction H; [apply shows_ret|]. apply shows_app; assumption. Qed.
Lemma shows_use : forall n x label url title, labelled x label -> (exists m, within m n /\ links_to m url title) -> shows n (wuse x label url title).
Proof. intros n x label url title L M y evs r E I. injection E as <- <-. destruct I as [Q|[]]. injection Q as <-. auto. Qed.
Lemma shows_below : forall v p cs c w, In c cs -> shows c w -> shows (Node v p cs) w.
Proof.
  intros v p cs c w I H x evs r E J. destruct (H x evs r E J) as [L (m & W & M)]. split; [exact L|]. exists m. split; [|exact M].
  eapply within_below; eassumption.
Qed.

(** The source does not contain U+0001, which marks collapsed references. *)
Section Shown.
Variable U : Uni.
Variable ENT : str -> option str.
Variable o : Options.
Variable src : list str.
Hypothesis no_marker : Forall (fun l => ~ In c_soh l) src.
Definition clean (s : str) : Prop := ~ In c_soh s.

Lemma clean_app : forall a b, clean a -> clean b -> clean (a ++ b).
Proof. intros a b A B0 I. apply in_app_or in I. destruct I; [exact (A H)|exact (B0 H)]. Qed.
Lemma in_firstn : forall (n : nat) (s : str) c, In c (firstn n s) -> In c s.
Proof.
  induction n as [|n IH]; intros [|x s] c I; cbn [firstn] in I; try destruct I; [left; assumption|]. right. apply IH. assumption.
Qed.
Lemma in_skipn : forall (n : nat) (s : str) c, In c (skipn n s) -> In c s.
Proof.
  induction n as [|n IH]; intros [|x s] c I; cbn [skipn] in I; try exact I; try destruct I. right. apply IH. exact I.
Qed.
Lemma clean_slice : forall s a b t, clean s -> safe_str_slice s a b = Ok t -> clean t.
Proof.
  intros s a b t C E I. unfold safe_str_slice in E. destruct (_ <? _); [discriminate|]. injection E as <-. apply C.
  apply in_firstn in I. apply in_skipn in I. exact I.
Qed.
Lemma clean_extract : forall p s, extract_source src p = Ok (Some s) -> clean s.
Proof.
  intros p s E. unfold extract_source in E. destruct (is_nil src); [discriminate|]. destruct (_ || _); [discriminate|].
  destruct (_ <=? _); [discriminate|].
  assert (G : forall a b is t, extract_loop src p a b is = Ok t -> clean t).
  { clear E. intros a b. induction is as [|i is IH]; intros t E; [injection E as <-; intros []|]. cbn [extract_loop] in E.
    destruct (extract_line src p a b i) as [piece|] eqn:L; [|discriminate]. cbn [rbind] in E.
    destruct (extract_loop src p a b is) as [rest|]; [|discriminate]. injection E as <-.
    assert (CL : clean (nth i src [])).
    { destruct (nth_in_or_default i src []) as [I|Q]; [|rewrite Q; intros []]. rewrite Forall_forall in no_marker. exact (no_marker _ I). }
    apply clean_app; [destruct (a <? i); [intros [Q|[]]; discriminate|intros []]|]. apply clean_app; [|apply IH; reflexivity].
    unfold extract_line in L. cbv zeta in L. destruct (a =? b); [exact (clean_slice _ _ _ _ CL L)|].
    destruct (i =? a); [exact (clean_slice _ _ _ _ CL L)|]. destruct (i =? b); [exact (clean_slice _ _ _ _ CL L)|]. injection L as <-. exact CL. }
  match type of E with rbind ?x _ = _ => destruct x as [t|] eqn:X end; [|discriminate]. injection E as <-. exact (G _ _ _ _ X).
Qed.
Lemma clean_normalize : forall s, clean s -> clean (normalize_whitespace s).
Proof.
  intros s C. unfold normalize_whitespace, split_whitespace.
  assert (G : forall s acc, clean s -> clean acc -> Forall clean (split_ws_aux acc s)).
  { clear. induction s as [|c s IH]; intros acc C A; cbn [split_ws_aux].
    - destruct acc; repeat constructor. intro I. apply A. apply in_rev. exact I.
    - assert (Cs : clean s) by (intro I; apply C; right; exact I). destruct (is_ws c).
      + assert (R : Forall clean (split_ws_aux [] s)) by (apply IH; [exact Cs|intros []]). destruct acc; [exact R|]. constructor; [|exact R].
        intro I. apply A. apply in_rev. exact I.
      + apply IH; [exact Cs|]. intros [->|I]; [apply C; left; reflexivity|exact (A I)]. }
  specialize (G s [] C). assert (F : Forall clean (split_ws_aux [] s)) by (apply G; intros []). clear G.
  induction F as [|x l Hx F IH]; [intros []|]. destruct l as [|y l]; [exact Hx|]. cbn [join]. apply clean_app; [exact Hx|].
  apply clean_app; [intros [Q|[]]; discriminate|exact IH].
Qed.
Lemma before_char_in : forall c s t, before_char c s = Some t -> forall x, In x t -> In x s.
Proof.
  intros c. induction s as [|y s IH]; intros t E x I; [discriminate|]. cbn [before_char] in E. destruct (ceq y c); [injection E as <-; destruct I|].
  destruct (before_char c s) as [a|]; [|discriminate]. injection E as <-. destruct I as [->|I]; [left; reflexivity|right; exact (IH _ eq_refl _ I)].
Qed.
Lemma strip_prefix_in : forall p s t, strip_prefix p s = Some t -> forall x, In x t -> In x s.
Proof. intros p s t E x I. apply strip_prefix_some in E. rewrite E. apply in_or_app. right. exact I. Qed.
Lemma reference_style_label : forall p text label, reference_style_of src p = Ok (Some (text, label)) ->
  clean text /\ (label = c_soh :: text \/ clean label).
Proof.
  intros p text label E. unfold reference_style_of in E. destruct (extract_source src p) as [[source0|]|] eqn:X; try discriminate. cbn [rbind] in E.
  apply clean_extract in X. injection E as E. unfold reference_style in E. cbv zeta in E.
  assert (C : clean (match strip_prefix [c_bang] source0 with Some r => r | None => source0 end)).
  { destruct (strip_prefix [c_bang] source0) as [r|] eqn:S; [|exact X]. intro I. apply X. exact (strip_prefix_in _ _ _ S _ I). }
  set (source := match strip_prefix [c_bang] source0 with Some r => r | None => source0 end) in *.
  destruct (find_byte c_lbr source) as [fb|]; [|discriminate]. destruct (closing_bracket 0%Z (skipn fb source)) as [k|]; [|discriminate].
  set (t := normalize_whitespace (firstn (fb + k - (fb + 1)) (skipn (fb + 1) source))) in *.
  assert (CT : clean t).
  { apply clean_normalize. intro I. apply in_firstn in I. apply in_skipn in I. exact (C I). }
  destruct (starts_with _ _); [discriminate|].
  destruct (strip_prefix [c_lbr] (skipn (fb + k + 1) source)) as [lc|] eqn:SL; [|injection E as <- <-; auto].
  destruct (before_char c_rbr lc) as [l|] eqn:BC; [|injection E as <- <-; auto].
  injection E as <- <-. split; [exact CT|]. destruct (is_nil (normalize_whitespace l)); [left; reflexivity|right].
  apply clean_normalize. intro I. apply C. apply (before_char_in _ _ _ BC) in I. apply (strip_prefix_in _ _ _ SL) in I. exact (in_skipn _ _ _ I).
Qed.

Lemma shows_reference : forall n p op text label url title, (op = [c_lbr] \/ op = [c_bang; c_lbr]) ->
  reference_style_of src p = Ok (Some (text, label)) -> (exists m, within m n /\ links_to m url title) ->
  shows n (format_reference op text label url title).
Proof.
  intros n p op text label url title Op RS M. unfold format_reference. destruct (reference_style_label _ _ _ RS) as [CT CL].
  assert (Q : exists a, op = a ++ [c_lbr]) by (destruct Op as [->| ->]; [exists []|exists [c_bang]]; reflexivity). destruct Q as [a ->].
  destruct (strip_prefix [c_soh] label) as [actual|] eqn:SP.
  - apply shows_use; [|exact M]. apply strip_prefix_some in SP. destruct CL as [->|CL].
    + injection SP as ->. rewrite <- app_assoc. apply (labelled_here actual a). 
    + exfalso. apply CL. rewrite SP. left. reflexivity.
  - destruct (seqb text label) eqn:SE.
    + apply seqb_true in SE. subst label. apply shows_use; [|exact M]. rewrite <- app_assoc. apply (labelled_here text a []).
    + apply shows_use; [|exact M]. pose proof (labelled_here label (a ++ [c_lbr] ++ text ++ [c_rbr]) []) as L.
      repeat (rewrite <- !app_assoc in L; cbn [app] in L). repeat (rewrite <- !app_assoc; cbn [app]). exact L.
Qed.
Lemma strip_marker_label : forall p text label, reference_style_of src p = Ok (Some (text, label)) ->
  strip_marker label = text \/ strip_marker label = label.
Proof.
  intros p text label RS. destruct (reference_style_label _ _ _ RS) as [CT CL]. unfold strip_marker.
  destruct (strip_prefix [c_soh] label) as [actual|] eqn:SP; [|auto]. apply strip_prefix_some in SP. destruct CL as [->|CL]; [injection SP as ->; auto|].
  exfalso. apply CL. rewrite SP. left. reflexivity.
Qed.
Lemma shows_rstyle : forall n p (f : option (str * str) -> W),
  (forall text label, reference_style_of src p = Ok (Some (text, label)) -> shows n (f (Some (text, label)))) -> shows n (f None) ->
  shows n (rbind (reference_style_of src p) f).
Proof.
  intros n p f H N. destruct (reference_style_of src p) as [[[t l]|]|] eqn:E; cbn [rbind].
  - apply H. reflexivity.
  - exact N.
  - intros x evs r Q. discriminate.
Qed.
Lemma shows_text : forall n p t, shows n (inline_text U ENT o src p t).
Proof. intros n p t. apply shows_rbind. intros [x|]; apply shows_ret. Qed.
Lemma shows_code : forall n p t, shows n (inline_code src p t).
Proof. intros n p t. apply shows_rbind. intros x y evs r E I. injection E as <- <-. destruct I as [Q|[]]. discriminate. Qed.
Lemma shows_external : forall n text url title b, (exists m, within m n /\ links_to m url title) -> shows n (format_external_link text url title b).
Proof.
  intros n text url title b M. unfold format_external_link. cbv zeta. apply shows_use; [|exact M]. apply (labelled_here _ []).
Qed.
Theorem collect_text_shows : forall n, shows n (collect_text U ENT o src n).
Proof.
  induction n as [v p cs IH] using node_ind'.
  assert (K : shows (Node v p cs) (wcat (map (collect_text U ENT o src) cs))).
  { apply shows_cat. apply Forall_map. rewrite Forall_forall in *. intros c I. apply (shows_below _ _ _ c _ I). exact (IH c I). }
  cbn [collect_text].
  destruct v; try exact K; try apply shows_ret; try apply shows_text; try apply shows_code.
  - apply shows_rbind. intro d. repeat apply shows_app; try apply shows_ret. exact K.
  - apply shows_rbind. intro d. repeat apply shows_app; try apply shows_ret. exact K.
  - assert (M : exists m, within m (Node (NLink url title) p cs) /\ links_to m url title)
      by (eexists; split; [apply within_here|left; reflexivity]).
    apply shows_rstyle; [intros t l E; apply (shows_reference _ p); [left; reflexivity|exact E|exact M]|].
    destruct (is_external_url url); [apply shows_external; exact M|apply shows_ret].
Qed.
Theorem collect_inline_shows : forall n next, shows n (collect_inline U ENT o src next n).
Proof.
  induction n as [v p cs IH] using node_ind'. intro next.
  assert (K : shows (Node v p cs) (wcat (with_next (collect_inline U ENT o src) cs))).
  { apply shows_cat. rewrite Forall_forall in *. intros w I. apply with_next_in in I. destruct I as (nx & c & I & ->).
    apply (shows_below _ _ _ c _ I). apply (IH c I). }
  cbn [collect_inline]. cbv zeta.
  destruct v; try exact K; try apply shows_ret; try apply shows_text; try apply shows_code.
  - apply shows_rbind. intro d. repeat apply shows_app; try apply shows_ret. exact K.
  - apply shows_rbind. intro d. repeat apply shows_app; try apply shows_ret. exact K.
  - assert (M : exists m, within m (Node (NLink url title) p cs) /\ links_to m url title)
      by (eexists; split; [apply within_here|left; reflexivity]).
    apply shows_rstyle; [intros t l E|].
    + destruct (existsb is_image cs); [|apply (shows_reference _ p); [left; reflexivity|exact E|exact M]].
      repeat apply shows_app; [apply shows_ret|exact K|]. apply shows_use; [|exact M]. exact (labelled_here (strip_marker l) [c_rbr] []).
    + destruct (existsb is_image cs); [repeat apply shows_app; [apply shows_ret|exact K|apply shows_ret]|].
      destruct (_ && _); [apply shows_ret|]. destruct (is_external_url url); (apply shows_bind; [exact K|..]).
      * intros x y evs E l L. unfold format_external_link, wuse in E. cbv zeta in E. injection E as <- <-. rewrite spaced_replace.
        apply (labelled_inside (spaced x) l [c_lbr]). apply labelled_spaced. exact L.
      * intro x. apply shows_external. exact M.
      * intros x y evs E l L. injection E as <- <-. unfold format_inline_link.
        apply (labelled_inside x l [c_lbr]). exact L.
      * intro x. apply shows_ret.
  - assert (M : exists m, within m (Node (NImage url title) p cs) /\ links_to m url title)
      by (eexists; split; [apply within_here|right; reflexivity]).
    apply shows_rstyle; [intros t l E; apply (shows_reference _ p); [right; reflexivity|exact E|exact M]|].
    apply shows_bind; [exact K|..].
    + intros x y evs E l L. injection E as <- <-. apply (labelled_inside x l [c_bang; c_lbr]). exact L.
    + intro x. apply shows_ret.
Qed.
Theorem C25_label_written : forall n text evs r, inline_content U ENT o src n = Ok (text, evs) -> In (EvUse r) evs ->
  labelled text (ref_label r) /\ exists m, within m n /\ links_to m (ref_url r) (ref_title r).
Proof.
  intros n text evs r. apply (fun H : shows n (inline_content U ENT o src n) => H text evs r). destruct n as [v p cs]. unfold inline_content. cbn [node_children].
  apply shows_cat. apply Forall_forall. intros w I. apply with_next_in in I. destruct I as (nx & c & I & ->).
  apply (shows_below _ _ _ c _ I). apply collect_inline_shows.
Qed.

(** The other way: a link or an image is written with its URL, or as a use. *)
Lemma link_written : forall next m url title x evs, links_to m url title -> collect_inline U ENT o src next m = Ok (x, evs) ->
  inline_form url title x \/ exists label, In (EvUse (mkRef label url title)) evs.
Proof.
  intros next [v p cs] url title x evs L E.
  assert (T : title_suffix title = match title with [] => [] | _ => [c_sp; c_dq] ++ title ++ [c_dq] end) by (destruct title; reflexivity).
  assert (FR : forall op t l, format_reference op t l url title = Ok (x, evs) -> exists label, In (EvUse (mkRef label url title)) evs).
  { intros op t l F. unfold format_reference in F. destruct (strip_prefix [c_soh] l); [|destruct (seqb t l)]; injection F as <- <-; eexists; left; reflexivity. }
  destruct L as [L|L]; cbn [node_value] in L; subst v; cbn [collect_inline] in E; cbv zeta in E;
    destruct (reference_style_of src p) as [[[t l]|]|]; cbn [rbind] in E; try discriminate.
  - destruct (existsb is_image cs); [|right; exact (FR _ _ _ E)].
    right. destruct (wcat _) as [[k e]|]; [|discriminate]. injection E as <- <-. eexists. cbn [snd app]. apply in_or_app. right. left. reflexivity.
  - destruct (existsb is_image cs).
    + destruct (wcat _) as [[k e]|]; [|discriminate]. injection E as <- <-. left. left. exists k. cbn [fst app]. rewrite T. reflexivity.
    + destruct (is_nil title && seqb (raw_text (Node (NLink url title) p cs)) url) eqn:A.
      * injection E as <- <-. apply andb_true_iff in A. destruct A as [A _]. left. right. right. split; [destruct title; [reflexivity|discriminate]|reflexivity].
      * destruct (wcat _) as [[k e]|]; [|destruct (is_external_url url); discriminate]. destruct (is_external_url url).
        -- injection E as <- <-. right. eexists. apply in_or_app. right. left. reflexivity.
        -- injection E as <- <-. left. left. exists k. cbn [fst]. unfold format_inline_link. rewrite T. reflexivity.
  - right. exact (FR _ _ _ E).
  - destruct (wcat _) as [[k e]|]; [|discriminate]. injection E as <- <-. left. right. left. exists k. cbn [fst]. unfold format_inline_image. rewrite T. reflexivity.
Qed.
Lemma wcat_in : forall l w, In w l -> forall x evs, wcat l = Ok (x, evs) ->
  exists a xm b e1 em e2, w = Ok (xm, em) /\ x = a ++ xm ++ b /\ evs = e1 ++ em ++ e2.
Proof.
  induction l as [|v l IH]; intros w I x evs E; [destruct I|]. cbn [wcat fold_right] in E. fold (wcat l) in E. unfold wapp in E.
  destruct v as [[y e]|]; [|discriminate]. cbn [rbind] in E. destruct (wcat l) as [[z f]|] eqn:Q; [|discriminate]. injection E as <- <-. cbn [fst snd].
  destruct I as [<-|I].
  - exists [], y, z, [], e, f. auto.
  - destruct (IH w I _ _ eq_refl) as (a & xm & b & e1 & em & e2 & -> & -> & ->). exists (y ++ a), xm, b, (e ++ e1), em, e2.
    rewrite <- !app_assoc. auto.
Qed.
Lemma content_embedded : forall m n, content_of m n -> forall next x evs, collect_inline U ENT o src next n = Ok (x, evs) ->
  exists nx a xm b e1 em e2, collect_inline U ENT o src nx m = Ok (xm, em) /\ x = a ++ xm ++ b /\ evs = e1 ++ em ++ e2.
Proof.
  intros m n H. induction H as [|v p cs c V I H IH]; intros next x evs E.
  - exists next, [], x, [], [], evs, []. rewrite !app_nil_r. auto.
  - assert (W : exists nx, In (collect_inline U ENT o src nx c) (with_next (collect_inline U ENT o src) cs)).
    { clear - I. induction cs as [|d cs IHc]; [destruct I|]. cbn [with_next]. destruct I as [->|I]; [eexists; left; reflexivity|].
      destruct (IHc I) as [nx J]. exists nx. right. exact J. }
    destruct W as [nx W].
    assert (G : forall k e, wcat (with_next (collect_inline U ENT o src) cs) = Ok (k, e) ->
      exists nx a xm b e1 em e2, collect_inline U ENT o src nx m = Ok (xm, em) /\ k = a ++ xm ++ b /\ e = e1 ++ em ++ e2).
    { intros k e Q. destruct (wcat_in _ _ W _ _ Q) as (a & xm & b & e1 & em & e2 & Ec & -> & ->).
      destruct (IH _ _ _ Ec) as (nx' & a' & xm' & b' & e1' & em' & e2' & Em & -> & ->).
      exists nx', (a ++ a'), xm', (b' ++ b), (e1 ++ e1'), em', (e2' ++ e2). rewrite <- !app_assoc. auto. }
    cbn [collect_inline] in E. cbv zeta in E. destruct v; try contradiction; try exact (G _ _ E).
    + destruct (emphasis_delimiter src _) as [d|]; [|discriminate]. cbn [rbind] in E. destruct (wcat _) as [[k e]|] eqn:Q; [|discriminate].
      injection E as <- <-. destruct (G _ _ eq_refl) as (nx' & a & xm & b & e1 & em & e2 & Em & -> & ->).
      exists nx', (d :: a), xm, (b ++ [d]), e1, em, e2. cbn [fst snd app]. rewrite <- !app_assoc, ?app_nil_r. auto.
    + destruct (strong_delimiter src _) as [d|]; [|discriminate]. cbn [rbind] in E. destruct (wcat _) as [[k e]|] eqn:Q; [|discriminate].
      injection E as <- <-. destruct (G _ _ eq_refl) as (nx' & a & xm & b & e1 & em & e2 & Em & -> & ->).
      exists nx', (d ++ a), xm, (b ++ d), e1, em, e2. cbn [fst snd app]. rewrite <- !app_assoc, ?app_nil_r. auto.
Qed.
Theorem C25_links_written : forall m n next url title text evs, content_of m n -> links_to m url title ->
  collect_inline U ENT o src next n = Ok (text, evs) ->
  exists a written b, text = a ++ written ++ b
    /\ (inline_form url title written
        \/ exists label, In (EvUse (mkRef label url title)) evs /\ labelled written label).
Proof.
  intros m n next url title text evs C L E. destruct (content_embedded _ _ C _ _ _ E) as (nx & a & xm & b & e1 & em & e2 & Em & -> & ->).
  exists a, xm, b. split; [reflexivity|]. destruct (link_written _ _ _ _ _ _ L Em) as [I|[label I]]; [left; exact I|right]. exists label.
  split; [apply in_or_app; right; apply in_or_app; left; exact I|]. exact (proj1 (collect_inline_shows m nx _ _ _ Em I)).
Qed.
End Shown.
Print Assumptions C25_label_written.
Print Assumptions C25_links_written.

(** ** Reading the definitions back *)
Lemma read_until_guarded : forall stop bad special, (forall c, stop c || bad c = true -> special c = true) ->
  forall s, guarded special s -> forall c r, c <> c_bs -> stop c = true -> read_until stop bad (s ++ c :: r) = Some (s, r).
Proof.
  intros stop bad special H s G c r N S. induction G as [|x s NB SP G IH|x s G IH]; cbn [app read_until].
  - destruct (N.eqb c c_bs) eqn:E; [apply N.eqb_eq in E; contradiction|]. rewrite S. reflexivity.
  - destruct (N.eqb x c_bs) eqn:E; [apply N.eqb_eq in E; contradiction|].
    assert (Q : stop x = false /\ bad x = false).
    { destruct (stop x) eqn:A, (bad x) eqn:B; try (rewrite (H x) in SP; [discriminate|rewrite A, B; reflexivity]). auto. }
    destruct Q as [-> ->]. rewrite IH. reflexivity.
  - change (N.eqb c_bs c_bs) with true. cbn iota. rewrite IH. reflexivity.
Qed.
Lemma read_dest_plain : forall s rest, Forall (fun c => (32 < c)%N /\ c <> 127%N /\ c <> c_lpar /\ c <> c_rpar) s ->
  (rest = [] \/ exists r, rest = c_sp :: r \/ rest = c_nl :: r) -> read_dest 0 (s ++ rest) = Some (s, rest).
Proof.
  intros s rest F R. induction F as [|c s (A & B & C & D) F IH].
  - destruct R as [->|[r [->| ->]]]; reflexivity.
  - cbn [app read_dest]. unfold c_sp, c_nl, c_lpar, c_rpar in *.
    replace (N.eqb c 32) with false by lia. replace (N.eqb c 10) with false by lia. replace (N.ltb c 32) with false by lia.
    replace (N.eqb c 127) with false by lia. replace (N.eqb c 40) with false by lia. replace (N.eqb c 41) with false by lia. cbn [orb].
    cbv zeta. rewrite IH. reflexivity.
Qed.
Theorem C25_definition_read : forall r,
  guarded bracket (spaced (ref_label r)) -> (exists c, In c (ref_label r) /\ c <> 0%N /\ is_ws c = false) ->
  ref_url r <> [] -> hd_error (ref_url r) <> Some c_lt ->
  Forall (fun c => (32 < c)%N /\ c <> 127%N /\ c <> c_lpar /\ c <> c_rpar) (ref_url r) ->
  guarded quote_mark (ref_title r) ->
  read_definition (definition_line r) = Some (spaced (ref_label r), ref_url r, ref_title r).
Proof.
  intros [label url title] GL (c & CI & CN & CW) UN UL UF GT. cbn [ref_label ref_url ref_title] in *.
  unfold definition_line. cbn [ref_label ref_url ref_title]. fold (spaced label). cbn [app read_definition].
  change (N.eqb c_lbr c_lbr) with true. cbn iota.
  rewrite (read_until_guarded (N.eqb c_rbr) (N.eqb c_lbr) bracket).
  2:{ intros x Q. unfold bracket. rewrite (N.eqb_sym x c_lbr), (N.eqb_sym x c_rbr), orb_comm. exact Q. }
  2:{ exact GL. } 2:{ discriminate. } 2:{ reflexivity. }
  change (N.eqb c_colon c_colon) with true. change (N.eqb c_sp c_sp) with true. cbn [andb].
  assert (EX : existsb (fun c => negb (is_ws c)) (spaced label) = true).
  { apply existsb_exists. exists c. split; [|rewrite CW; reflexivity]. unfold spaced. apply in_map_iff. exists c. split; [|exact CI].
    destruct (N.eqb c 0) eqn:E; [apply N.eqb_eq in E; contradiction|reflexivity]. }
  rewrite EX. destruct url as [|u0 us]; [contradiction|]. cbn [hd_error] in UL.
  cbn [app]. replace (N.eqb u0 c_lt) with false by (symmetry; apply N.eqb_neq; congruence). cbn iota.
  change (u0 :: us ++ ?x) with ((u0 :: us) ++ x).
  rewrite read_dest_plain; [|exact UF|].
  2:{ right. destruct title; eexists; [right|left]; reflexivity. }
  destruct title as [|t0 ts]; [reflexivity|]. cbn [app].
  change (N.eqb c_sp c_sp) with true. change (N.eqb c_dq c_dq) with true. cbn [andb].
  change (t0 :: ts ++ [c_dq] ++ [c_nl]) with ((t0 :: ts) ++ c_dq :: [c_nl]). 
  replace (t0 :: (ts ++ [c_dq]) ++ [c_nl]) with ((t0 :: ts) ++ c_dq :: [c_nl]) by (cbn [app]; rewrite <- app_assoc; reflexivity).
  rewrite (read_until_guarded (N.eqb c_dq) (fun _ => false) quote_mark); [reflexivity|..|exact GT|discriminate|reflexivity].
  intros x Q. rewrite orb_false_r in Q. unfold quote_mark. rewrite N.eqb_sym. exact Q.
Qed.
Print Assumptions C25_definition_read.
Example C25_definition_example :
  read_definition (definition_line (mkRef (lit "a \[b\] c") (lit "https://x.y/?p=1&q=2") (lit "The \""title\"""))) =
    Some (lit "a \[b\] c", lit "https://x.y/?p=1&q=2", lit "The \""title\""").
Proof. reflexivity. Qed.

(** ** The document *)
Lemma laid_in : forall text ds, laid text ds -> forall r, In r ds -> exists a b, text = a ++ [c_nl] ++ definition_line r ++ b.
Proof.
  intros text ds L. induction L as [|text ds x L IH|text ds r L IH]; intros d I.
  - destruct I.
  - destruct (IH d I) as (a & b & ->). exists a, (b ++ x). repeat (rewrite <- !app_assoc; cbn [app]). reflexivity.
  - apply in_app_or in I. destruct I as [I|[<-|[]]].
    + destruct (IH d I) as (a & b & E). exists a, (b ++ definition_line r).
      rewrite app_assoc, E. repeat (rewrite <- !app_assoc; cbn [app]). reflexivity.
    + exists text, []. rewrite app_nil_r. reflexivity.
Qed.

Lemma built_uses : forall U o checks top ok a, built U o checks top ok a -> forall s s', a s = Ok s' ->
  forall r, In r (uses (trace s')) -> In r (uses (trace s)) \/ ok (EUse r).
Proof.
  intros U o checks top ok a H.
  induction H; intros s s' E rr I; try discriminate; try (injection E as <-; left; exact I).
  - apply seqa_ok in E. destruct E as (m & E1 & E2). destruct (IHbuilt2 _ _ E2 _ I) as [J|J]; [eauto|auto].
  - unfold get in E. eauto.
  - injection E as <-. cbn in I. rewrite uses_app in I. cbn in I. rewrite app_nil_r in I. auto.
  - injection E as <-. cbv zeta in I. assert (J : In rr (uses (trace s ++ [Use r]))) by (destruct (f_collecting (footnotes s)); exact I).
    rewrite uses_app in J. apply in_app_or in J. destruct J as [J|[<-|[]]]; auto.
  - destruct (flush_references_eq s) as (z & Ez & _ & T & _). rewrite Ez in E. injection E as <-. rewrite T, uses_app, uses_defs, app_nil_r in I. auto.
  - apply flush_footnotes_ok in E. destruct E as (texts & _ & _ & T & _). rewrite T, uses_app, uses_notes, app_nil_r in I. auto.
  - destruct (flush_footnote_references_eq l s) as (z & Ez & _ & T & _). rewrite Ez in E. injection E as <-. rewrite T, uses_app, uses_defs, app_nil_r in I. auto.
  - injection E as <-. cbv zeta in I. destruct (assoc_str n _); auto.
  - unfold single_block, get in E. apply seqa_ok in E. destruct E as (m & E1 & E).
    apply seqa_ok in E. destruct E as (m2 & E2 & E). apply seqa_ok in E. destruct E as (m3 & E3 & E4).
    injection E1 as <-. injection E3 as <-. destruct (H1 _ _ _ E4 _ I) as [J|J]; [|auto]. exact (IHbuilt _ _ E2 _ J).
  - rewrite <- H0 in E. eauto.
Qed.

Section Doc.
Variable U : Uni.
Variable PN : list (str * str).
Variable ENT : str -> option str.
Variable o : Options.
Variable B : backend.
Variable src : list str.
Variable ends_nl : bool.
Variable checks : bool.

Theorem C25_defined_once_partial : forall p cs s',
  forallb no_document cs = true -> (forall n, In n cs -> ~ directs n DisableFile) ->
  serialize_root U PN ENT o B src ends_nl checks (Node NDocument p cs) = Ok s' ->
  laid (output s') (defs (trace s'))
  /\ NoDup (map ref_label (defs (trace s')))
  /\ (forall r, In r (uses (trace s')) -> exists d, In d (defs (trace s')) /\ ref_label d = ref_label r)
  /\ (forall d, In d (defs (trace s')) -> In d (uses (trace s')))
  /\ (forall r, In r (uses (trace s')) -> exists m, within m (Node NDocument p cs) /\ links_to m (ref_url r) (ref_title r)).
Proof.
  intros p cs s' D ND E. pose proof (serialize_refs _ _ _ _ _ _ _ _ _ _ E) as R.
  assert (E0 := E). apply root_steps in E. destruct E as (ws & m1 & m2 & _ & E1 & E2 & E3).
  split; [|split; [exact (ri_once _ R)|split; [|split; [exact (ri_used _ R)|]]]].
  - apply (doc_run_lays _ _ _ _ _ _ _ _ _ _ _ _ _ E3 D). apply (notes_run_lays _ _ _ _ _ _ _ _ _ _ _ E2 D).
    assert (Bt : built U o checks false any_effect (collect_reference_lines (Node NDocument p cs))) by (apply built_collect_lines; apply any_refs).
    destruct (built_inner _ _ _ _ _ Bt _ _ E1) as [_ _ _ _ _ (t & T & F)].
    destruct (built_gr _ _ _ _ _ _ Bt _ _ E1) as [[x G] _ _ _].
    unfold laid_out. rewrite G, T, defs_app. replace (defs t) with (@nil reference); [apply laid_text; apply laid_nil|].
    clear - F. induction F as [|e t H F IH]; [reflexivity|]. destruct e; try contradiction; exact IH.
  - intros r I. destruct (doc_run_end _ _ _ _ _ _ _ _ _ _ _ _ _ E3 ND) as (m & mm & F1 & F2 & F3).
    assert (R2 : ref_inv m2).
    { assert (B1 : built U o checks false any_effect (collect_reference_lines (Node NDocument p cs))) by (apply built_collect_lines; apply any_refs).
      pose proof (built_refs _ _ _ _ _ _ B1 _ _ E1 (ref_inv_init ws)) as R1. clear - E2 R1.
      induction E2; auto. apply IHE2.
      refine (built_refs U o checks true any_effect _ _ _ _ H0 R1). apply built_serialize; [apply any0|discriminate|apply any_ok]. }
    destruct (flush_all_none _ _ _ _ _ (F3 R2) F1) as [P1 P2]. destruct (trailing_same _ _ _ _ F2) as (Q1 & Q2 & _).
    destruct (ri_covered _ R r I) as [J|[J|J]].
    + apply (ri_emitted _ R) in J. apply in_map_iff in J. destruct J as (d & Q & J). exists d. auto.
    + rewrite Q1, P1 in J. destruct J.
    + rewrite Q2, P2 in J. destruct J.
  - intros r I.
    set (ok := fun e => match e with EUse r => exists m, within m (Node NDocument p cs) /\ links_to m (ref_url r) (ref_title r) | _ => True end).
    assert (Bt : built U o checks true ok (serialize U PN ENT o B src ends_nl checks None (Node NDocument p cs))).
    { apply built_serialize; [intros; exact Logic.I|discriminate|]. intros m W. split; [intros; apply Forall_forall; intros; exact Logic.I|].
      destruct (node_value m) eqn:V; try exact Logic.I; try (intros; exact Logic.I); intro label; exists m; split; [exact W| |exact W|]; [left|right]; exact V. }
    destruct (built_uses _ _ _ _ _ _ Bt _ _ E0 r I) as [[]|J]. exact J.
Qed.

(** When no two uses have labels that read the same but different targets,
    every use finds its own target. *)
Theorem C25_target_partial : forall norm p cs s',
  forallb no_document cs = true -> (forall n, In n cs -> ~ directs n DisableFile) ->
  serialize_root U PN ENT o B src ends_nl checks (Node NDocument p cs) = Ok s' ->
  (forall r r', In r (uses (trace s')) -> In r' (uses (trace s')) -> norm (ref_label r) = norm (ref_label r') ->
     ref_url r = ref_url r' /\ ref_title r = ref_title r') ->
  forall r, In r (uses (trace s')) ->
  exists d, resolves norm (ref_label r) (defs (trace s')) d /\ ref_url d = ref_url r /\ ref_title d = ref_title r.
Proof.
  intros norm p cs s' D ND E Amb r I. destruct (C25_defined_once_partial p cs s' D ND E) as (_ & _ & Ex & Us & _).
  destruct (Ex r I) as (d & ID & L).
  assert (G : forall ds, (exists d, In d ds /\ norm (ref_label d) = norm (ref_label r)) -> exists d, resolves norm (ref_label r) ds d /\ In d ds).
  { intros ds. induction ds as [|x ds IH]; intros (y & J & Q); [destruct J|].
    destruct (list_eq_dec N.eq_dec (norm (ref_label x)) (norm (ref_label r))) as [Y|Y].
    - exists x. split; [apply res_here; exact Y|left; reflexivity].
    - destruct J as [->|J]; [contradiction|]. destruct IH as (z & A & K); [eauto|]. exists z. split; [apply res_later; assumption|right; exact K]. }
  destruct (G (defs (trace s'))) as (z & A & K); [exists d; split; [exact ID|rewrite L; reflexivity]|].
  exists z. split; [exact A|].
  assert (Q : norm (ref_label z) = norm (ref_label r)) by (clear - A; induction A; auto).
  destruct (Amb z r (Us z K) I Q). auto.
Qed.
End Doc.
Print Assumptions C25_defined_once_partial.
Print Assumptions C25_target_partial.

(** ** Where it fails *)
Definition link25 (l : nat) (text : str) (url title : str) : node :=
  let len := byte_len text + byte_len url + 4 in
  Node NParagraph (mkPos l 1 l len) [Node (NLink url title) (mkPos l 1 l len) [Node (NText text) (mkPos l 2 l (byte_len text + 1)) []]].
Definition src25 (text url : str) : str := [c_lbr] ++ text ++ lit "](" ++ url ++ lit ")".

(** Two links with the same text and different URLs. *)
Theorem C25_same_text_refuted : exists src cs s r,
  run23 src cs = Ok s /\ In r (uses (trace s))
  /\ (exists m, within m (Node NDocument (mkPos 1 1 (List.length src) 1) cs) /\ links_to m (ref_url r) (ref_title r))
  /\ forall d, In d (defs (trace s)) -> ref_url d <> ref_url r.
Proof.
  exists [src25 (lit "here") (lit "https://a"); []; src25 (lit "here") (lit "https://b")],
    [link25 1 (lit "here") (lit "https://a") []; link25 3 (lit "here") (lit "https://b") []].
  eexists. exists (mkRef (lit "here") (lit "https://a") []).
  split; [vm_compute; reflexivity|]. split; [vm_compute; auto|]. split.
  - eexists. split; [eapply within_below; [left; reflexivity|]; eapply within_below; [left; reflexivity|]; apply within_here|]. left. reflexivity.
  - intros d I. vm_compute in I. destruct I as [<-|[]]. discriminate.
Qed.
Print Assumptions C25_same_text_refuted.
Definition lower25 (s : str) : str := map (fun c => if ((65 <=? c) && (c <=? 90))%N then (c + 32)%N else c) s.
(** Two links whose texts differ only in case. *)
Theorem C25_case_refuted : exists src cs s r,
  run23 src cs = Ok s /\ In r (uses (trace s))
  /\ forall d, resolves lower25 (ref_label r) (defs (trace s)) d -> ref_url d <> ref_url r.
Proof.
  exists [src25 (lit "Go") (lit "https://a"); []; src25 (lit "GO") (lit "https://b")],
    [link25 1 (lit "Go") (lit "https://a") []; link25 3 (lit "GO") (lit "https://b") []].
  eexists. exists (mkRef (lit "GO") (lit "https://b") []).
  split; [vm_compute; reflexivity|]. split; [vm_compute; auto|].
  intros d R. vm_compute in R. inversion R; subst; [discriminate|]. match goal with H : _ <> _ |- _ => destruct H; reflexivity end.
Qed.
Print Assumptions C25_case_refuted.
(** Definitions no reader understands: an empty text, a bracket in a code span,
    a space in the URL, a quotation mark in the title. *)
Definition unreadable (src : list str) (cs : list node) : Prop := exists s r,
  run23 src cs = Ok s /\ In r (uses (trace s)) /\ In r (defs (trace s)) /\ read_definition (definition_line r) = None.
Ltac unread := eexists; eexists; split; [vm_compute; reflexivity|]; split; [vm_compute; left; reflexivity|]; split; [vm_compute; left; reflexivity|reflexivity].
Theorem C25_unreadable_refuted :
  unreadable [src25 [] (lit "https://a")] [Node NParagraph (mkPos 1 1 1 13) [Node (NLink (lit "https://a") []) (mkPos 1 1 1 13) []]]
  /\ unreadable [src25 (lit "`[`") (lit "https://a")]
       [Node NParagraph (mkPos 1 1 1 16) [Node (NLink (lit "https://a") []) (mkPos 1 1 1 16) [Node (NCode (lit "[")) (mkPos 1 2 1 4) []]]]
  /\ unreadable [src25 (lit "a") (lit "<https://a b>")] [link25 1 (lit "a") (lit "https://a b") []]
  /\ unreadable [src25 (lit "a") (lit "https://a '""'")] [link25 1 (lit "a") (lit "https://a") (lit """")].
Proof. split; [unread|]. split; [unread|]. split; unread. Qed.
Print Assumptions C25_unreadable_refuted.
(** A closing bracket in a code span ends the text of a link. *)
Theorem C25_code_refuted : exists src cs s m code,
  run23 src cs = Ok s /\ within m (Node NDocument (mkPos 1 1 (List.length src) 1) cs) /\ node_value m = NCode code
  /\ spans (join [c_nl] src) (node_pos m) ([c_bt] ++ code ++ [c_bt]) /\ contains_sub code (output s) = false.
Proof.
  set (m := Node (NCode (lit "x]y")) (mkPos 1 2 1 6) []).
  exists [src25 (lit "`x]y`") (lit "https://a")],
    [Node NParagraph (mkPos 1 1 1 18) [Node (NLink (lit "https://a") []) (mkPos 1 1 1 18) [m]]].
  eexists. exists m, (lit "x]y").
  split; [vm_compute; reflexivity|]. split; [|split; [reflexivity|split; [|vm_compute; reflexivity]]].
  - do 3 (eapply within_below; [left; reflexivity|]). apply within_here.
  - exists [c_lbr], (lit "](https://a)"). split; [reflexivity|]. split; [cbn; lia|]. split; reflexivity.
Qed.
Print Assumptions C25_code_refuted.
(** A disabled file repeats the definition. *)
Theorem C25_file_refuted : exists src cs s d a b c,
  run23 src cs = Ok s /\ In d (defs (trace s))
  /\ output s = a ++ [c_nl] ++ definition_line d ++ b ++ [c_nl] ++ definition_line d ++ c.
Proof.
  exists [lit "[a]"; []; file23; []; lit "[a]: https://a"],
    [Node NParagraph (mkPos 1 1 1 3) [Node (NLink (lit "https://a") []) (mkPos 1 1 1 3) [Node (NText (lit "a")) (mkPos 1 2 1 2) []]]; html23 3 file23].
  eexists. exists (mkRef (lit "a") (lit "https://a") []), (lit "[a]" ++ [c_nl]), (file23 ++ [c_nl]), [].
  split; [vm_compute; reflexivity|]. split; [vm_compute; auto|]. vm_compute. reflexivity.
Qed.
Print Assumptions C25_file_refuted.
(** A link in a disabled region loses its definition, which is outside of it. *)
Theorem C25_disabled_refuted : exists src cs s m url,
  run23 src cs = Ok s /\ within m (Node NDocument (mkPos 1 1 (List.length src) 1) cs) /\ links_to m url []
  /\ contains_sub (lit "[a][x]") (output s) = true /\ In ((lit "[x]: ") ++ url) src /\ contains_sub url (output s) = false.
Proof.
  set (m := Node (NLink (lit "https://a") []) (mkPos 3 1 3 6) [Node (NText (lit "a")) (mkPos 3 2 3 2) []]).
  exists [dis23; []; lit "[a][x]"; []; en23; []; lit "[x]: https://a"],
    [html23 1 dis23; Node NParagraph (mkPos 3 1 3 6) [m]; html23 5 en23].
  eexists. exists m, (lit "https://a").
  split; [vm_compute; reflexivity|]. split; [|split; [left; reflexivity|]].
  - eapply within_below; [right; left; reflexivity|]. eapply within_below; [left; reflexivity|]. apply within_here.
  - split; [vm_compute; reflexivity|]. split; [right; right; right; right; right; right; left; reflexivity|]. vm_compute. reflexivity.
Qed.
Print Assumptions C25_disabled_refuted.

(** ** Examples *)
Definition ref25 (l : nat) (text label url : str) : node :=
  let len := byte_len text + byte_len label + 4 in
  Node (NLink url []) (mkPos l 1 l len) [Node (NText text) (mkPos l 2 l (byte_len text + 1)) []].
Definition cs25 : list node :=
  [Node (NHeading 1) (mkPos 1 1 1 3) [Node (NText (lit "T")) (mkPos 1 3 1 3) []];
   Node NParagraph (mkPos 3 1 3 6) [ref25 3 (lit "a") (lit "x") (lit "https://x")];
   Node (NHeading 2) (mkPos 5 1 5 4) [Node (NText (lit "S")) (mkPos 5 4 5 4) []];
   Node NParagraph (mkPos 7 1 7 6) [ref25 7 (lit "b") (lit "x") (lit "https://x")];
   link25 9 (lit "here") (lit "https://y") []].
Definition text25 : list str :=
  [lit "# T"; []; lit "[a][x]"; []; lit "## S"; []; lit "[b][x]"; []; lit "[here](https://y)"; []; lit "[x]: https://x"].
Example C25_witness : forallb no_document cs25 = true
  /\ match run23 text25 cs25 with
     | Ok s => uses (trace s) = [mkRef (lit "x") (lit "https://x") []; mkRef (lit "x") (lit "https://x") []; mkRef (lit "here") (lit "https://y") []]
               /\ defs (trace s) = [mkRef (lit "x") (lit "https://x") []; mkRef (lit "here") (lit "https://y") []]
     | Panic => False
     end.
Proof. vm_compute. auto. Qed.
Example C25_link_example :
  inline_content uni_ascii (fun _ => None) default_options text25 (nth 4 cs25 (Node NSoftBreak (mkPos 0 0 0 0) [])) =
    Ok (lit "[here]", [EvUse (mkRef (lit "here") (lit "https://y") [])]).
Proof. vm_compute. reflexivity. Qed.
