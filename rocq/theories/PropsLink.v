(** C50: links are written in the style of STYLE.md. *)
From Coq Require Import Bool Arith NArith Lia ZifyBool ZifyNat ZifyN String List.
From Verif Require Import Base BaseFacts EscapeModel OptsModel PunctModel WrapModel CodeModel TableModel HeadingModel
  AstModel StateModel InlineModel WarnModel SerModel SpecState SpecEmph PropsRefs EmphDoc PropsText PropsEmph PropsTitle SpecLink.
From Verif Require SerBuilt.
Import ListNotations.

Lemma paired_level : forall s, paired s -> forall d, level d s = Some d.
Proof.
  intros s P. 
  assert (G : forall d r, level d (s ++ r) = level d r).
  { induction P as [|c s A B P IH|a s Pa IHa P IH]; intros d r; [reflexivity| |].
    - cbn [app level]. destruct (ceq_spec c c_lbr); [contradiction|]. destruct (ceq_spec c c_rbr); [contradiction|]. apply IH.
    - cbn [app level]. rewrite ceq_refl. rewrite <- app_assoc. rewrite IHa. cbn [app level]. change (ceq c_rbr c_lbr) with false.
      rewrite ceq_refl. apply IH. }
  intro d. specialize (G d []). rewrite app_nil_r in G. exact G.
Qed.
Lemma paired_balanced : forall s, paired s -> balanced s.
Proof. intros s P. apply (paired_level s P 0). Qed.
Lemma style_paired : forall inside tail, paired inside -> reference_style ([c_lbr] ++ inside ++ [c_rbr] ++ tail) = 
  if starts_with [c_lpar] tail then None
    else match (match strip_prefix [c_lbr] tail with
                | Some label_content =>
                    match before_char c_rbr label_content with
                    | Some label => Some (normalize_whitespace label)
                    | None => None
                    end
                | None => None
                end) with
         | Some label => Some (normalize_whitespace inside, if is_nil label then c_soh :: normalize_whitespace inside else label)
         | None => Some (normalize_whitespace inside, normalize_whitespace inside)
         end.
Proof. intros inside tail P. exact (style_is false inside tail (paired_balanced _ P)). Qed.
Lemma not_starts : forall c s, hd_error s <> Some c -> strip_prefix [c] s = None.
Proof.
  intros c [|x s] H; [reflexivity|]. cbn [strip_prefix]. destruct (ceq_spec c x) as [->|]; [contradiction H; reflexivity|reflexivity].
Qed.
Lemma before_char_app : forall c s r, ~ In c s -> before_char c (s ++ c :: r) = Some s.
Proof.
  intros c s r N. induction s as [|x s IH]; cbn [app before_char]; [rewrite ceq_refl; reflexivity|].
  destruct (ceq_spec x c) as [->|]; [contradiction N; left; reflexivity|]. rewrite IH; [reflexivity|]. intro I. apply N. right. exact I.
Qed.
(** The model's reading of the source of a link is right. *)
Definition style_of_spelling (sp : spelling) : option (str * str) :=
  match sp with
  | WithUrl => None
  | Short i => Some (respaced i, respaced i)
  | Empty i => Some (respaced i, c_soh :: respaced i)
  | Full i l => Some (respaced i, respaced l)
  end.
Lemma respaced_nil : forall s, is_nil (respaced s) = true <-> split_whitespace s = [].
Proof.
  intro s. unfold respaced, split_whitespace.
  assert (G : forall s acc w, In w (split_ws_aux acc s) -> w <> []).
  { clear. induction s as [|c s IH]; intros acc w I; cbn [split_ws_aux] in I.
    - destruct acc as [|x acc]; cbn [is_nil] in I; [destruct I|]. destruct I as [<-|[]]. intro Q. cbn [rev] in Q. apply app_eq_nil in Q. destruct Q; discriminate.
    - destruct (is_ws c); [|exact (IH _ _ I)]. destruct acc as [|x acc]; cbn [is_nil] in I; [exact (IH _ _ I)|]. destruct I as [<-|I]; [|exact (IH _ _ I)].
      intro Q. cbn [rev] in Q. apply app_eq_nil in Q. destruct Q; discriminate. }
  specialize (G s []). destruct (split_ws_aux [] s) as [|w ws]; [cbn; tauto|]. split; [|discriminate]. intro Q. exfalso.
  apply (G w (or_introl eq_refl)). destruct w as [|x w]; [reflexivity|]. destruct ws; cbn in Q; discriminate.
Qed.
Lemma spelled_style : forall source sp, spelled source sp -> reference_style source = style_of_spelling sp.
Proof.
  intros source sp H. destruct H as [source N|inside tail P|inside tail P A B|inside gap tail P G N|inside label tail P G N].
  - apply style_unlabelled. left. exact N.
  - change ([c_rbr; c_lpar] ++ tail) with ([c_rbr] ++ c_lpar :: tail). rewrite style_paired by exact P. reflexivity.
  - rewrite style_paired by exact P. unfold starts_with. rewrite (not_starts _ _ A), (not_starts _ _ B). reflexivity.
  - change ([c_rbr; c_lbr] ++ gap ++ [c_rbr] ++ tail) with ([c_rbr] ++ c_lbr :: gap ++ c_rbr :: tail). rewrite style_paired by exact P.
    unfold starts_with. cbn [strip_prefix]. change (ceq c_lpar c_lbr) with false. rewrite ceq_refl, (before_char_app _ _ _ N).
    fold (respaced gap). unfold normalize_whitespace. fold (respaced gap). fold (respaced inside).
    replace (is_nil (respaced gap)) with true; [reflexivity|]. symmetry. apply respaced_nil. exact G.
  - change ([c_rbr; c_lbr] ++ label ++ [c_rbr] ++ tail) with ([c_rbr] ++ c_lbr :: label ++ c_rbr :: tail). rewrite style_paired by exact P.
    unfold starts_with. cbn [strip_prefix]. change (ceq c_lpar c_lbr) with false. rewrite ceq_refl, (before_char_app _ _ _ N).
    unfold normalize_whitespace. fold (respaced label). fold (respaced inside).
    destruct (is_nil (respaced label)) eqn:E; [|reflexivity]. contradiction G. apply respaced_nil. exact E.
Qed.
Lemma external_iff : forall url, is_external_url url = true <-> external url.
Proof.
  intro url. unfold is_external_url, external. rewrite orb_true_iff. split.
  - intros [H|H]; apply starts_with_true in H; destruct H as [r ->]; exists r; auto.
  - intros [r [->| ->]]; [left|right]; apply starts_with_true; eexists; reflexivity.
Qed.
Lemma follows_iff : forall next, next_starts_with_bracket next = true <-> bracket_follows next.
Proof.
  intros [m|]; unfold bracket_follows; cbn [next_starts_with_bracket].
  - split; [intro H; exists m; split; [reflexivity|]; destruct (node_value m); try discriminate; exact Logic.I|].
    intros (m' & E & H). injection E as <-. destruct (node_value m); try destruct H; reflexivity.
  - split; [discriminate|]. intros (m & E & _). discriminate.
Qed.
Lemma suffix_is : forall title, title_suffix title = match title with [] => [] | _ => [c_sp; c_dq] ++ title ++ [c_dq] end.
Proof. intros [|c t]; reflexivity. Qed.
Lemma unbroken_is : forall s, replace_char c_nul [c_sp] s = unbroken s.
Proof. exact sub_replace. Qed.
Lemma soh_respaced : forall s, ~ In c_soh s -> strip_prefix [c_soh] (respaced s) = None.
Proof.
  intros s N. apply not_starts. intro H. apply N. destruct (respaced s) as [|c r] eqn:E; [discriminate|]. injection H as ->.
  destruct (normalize_in s c_soh) as [K|K]; [fold (respaced s); unfold normalize_whitespace; fold (respaced s); rewrite E; left; reflexivity|discriminate K|exact K].
Qed.
Definition marks_free (sp : spelling) : Prop :=
  match sp with WithUrl => True | Short i | Empty i => ~ In c_soh i | Full i l => ~ In c_soh i /\ ~ In c_soh l end.
Lemma spelled_free : forall source sp, spelled source sp -> ~ In c_soh source -> marks_free sp.
Proof.
  intros source sp H N. destruct H; cbn [marks_free]; auto; try split; intro Z; apply N; rewrite ?in_app_iff; tauto.
Qed.
(** A reference of the source. *)
Lemma reference_styled : forall content shown url title next sp t l x evs,
  style_of_spelling sp = Some (t, l) -> marks_free sp -> format_reference_link t l url title = Ok (x, evs) ->
  exists use, link_style content shown url title false next sp x use /\ evs = match use with Some r => [EvUse r] | None => [] end.
Proof.
  intros content shown url title next sp t l x evs S M F. unfold format_reference_link, format_reference in F.
  destruct sp as [|i|i|i lb]; cbn [style_of_spelling marks_free] in *; [discriminate| | |]; injection S as <- <-.
  - rewrite (soh_respaced _ M), seqb_refl in F. injection F as <- <-. eexists. split; [apply ls_short; reflexivity|reflexivity].
  - cbn [strip_prefix] in F. rewrite ceq_refl in F. injection F as <- <-. eexists. split; [apply ls_empty; reflexivity|reflexivity].
  - destruct M as [_ M]. rewrite (soh_respaced _ M) in F. destruct (seqb (respaced i) (respaced lb)) eqn:E.
    + apply seqb_true in E. injection F as <- <-. eexists. split; [apply ls_same; [reflexivity|exact E]|reflexivity].
    + injection F as <- <-. eexists. split; [apply ls_full; [reflexivity|]|reflexivity]. intro Q. rewrite Q, seqb_refl in E. discriminate.
Qed.

Section Links.
Variable U : Uni.
Variable ENT : str -> option str.
Variable o : Options.
Variable src : list str.

Lemma link_styled : forall next p cs url title source sp x evs,
  let m := Node (NLink url title) p cs in
  extract_source src p = Ok (Some source) -> spelled source sp -> ~ In c_soh source ->
  collect_inline U ENT o src next m = Ok (x, evs) ->
  exists content use, (forall c e, inline_content U ENT o src m = Ok (c, e) -> c = content)
    /\ link_style content (raw_text m) url title (existsb is_image cs) next sp x use
    /\ match use with Some r => In (EvUse r) evs | None => True end.
Proof.
  intros next p cs url title source sp x evs m E S N H. pose proof (spelled_free _ _ S N) as M. apply spelled_style in S.
  unfold m in *. cbn [collect_inline] in H. cbv zeta in H. unfold reference_style_of in H. rewrite E in H. cbn [rbind] in H. rewrite S in H.
  unfold inline_content. cbn [node_children]. destruct (style_of_spelling sp) as [[t l]|] eqn:SS.
  - destruct (existsb is_image cs) eqn:Im.
    + destruct (wcat (with_next (collect_inline U ENT o src) cs)) as [[k e]|]; [|discriminate]. cbn in H. injection H as <- <-.
      assert (L : match sp with Short i | Empty i => strip_marker l = respaced i | Full _ l' => strip_marker l = respaced l' | WithUrl => False end).
      { unfold strip_marker. destruct sp as [|i|i|i lb]; cbn [style_of_spelling marks_free] in *; [discriminate| | |]; injection SS as <- <-.
        - rewrite (soh_respaced _ M). reflexivity.
        - cbn [strip_prefix]. rewrite ceq_refl. reflexivity.
        - rewrite (soh_respaced _ (proj2 M)). reflexivity. }
      exists k. eexists. split; [intros c e' Q; congruence|]. split; [|].
      * exact (ls_pictured_label k _ url title true next sp (strip_marker l) eq_refl L).
      * cbn [snd app]. apply in_or_app. right. left. reflexivity.
    + destruct (reference_styled match wcat (with_next (collect_inline U ENT o src) cs) with Ok (c, _) => c | Panic => [] end
                  (raw_text (Node (NLink url title) p cs)) url title next sp t l x evs SS M H) as (use & L & ->).
      eexists. exists use. split; [|split; [exact L|]]; [intros c e Q; rewrite Q; reflexivity|]. destruct use; [left; reflexivity|exact Logic.I].
  - assert (W : sp = WithUrl) by (destruct sp; try discriminate; reflexivity). subst sp.
    destruct (existsb is_image cs) eqn:Im.
    + destruct (wcat (with_next (collect_inline U ENT o src) cs)) as [[k e]|]; [|discriminate]. cbn in H. injection H as <- <-.
      exists k, None. split; [intros c e' Q; congruence|]. split; [|exact Logic.I]. rewrite suffix_is. apply (ls_pictured_url k). reflexivity.
    + destruct (is_nil title && seqb (raw_text (Node (NLink url title) p cs)) url) eqn:A.
      * injection H as <- <-. apply andb_true_iff in A. destruct A as [A B]. apply seqb_true in B. destruct title; [|discriminate].
        exists match wcat (with_next (collect_inline U ENT o src) cs) with Ok (c, _) => c | Panic => [] end, None.
        split; [intros c e Q; rewrite Q; reflexivity|]. split; [|exact Logic.I]. apply ls_angle; [reflexivity|reflexivity|exact B].
      * assert (T : title <> [] \/ raw_text (Node (NLink url title) p cs) <> url).
        { destruct title; [right; intro Q; rewrite Q, seqb_refl in A; discriminate|left; discriminate]. }
        destruct (wcat (with_next (collect_inline U ENT o src) cs)) as [[k e]|]; [|destruct (is_external_url url); discriminate].
        destruct (is_external_url url) eqn:X.
        -- apply external_iff in X. cbn [wbind rbind fst snd] in H. unfold format_external_link, wuse in H. cbv zeta in H. cbn [rbind fst snd] in H.
           rewrite unbroken_is in H. injection H as <- <-. destruct (next_starts_with_bracket next) eqn:F.
           ++ apply follows_iff in F. exists k. eexists. split; [intros c e' Q; congruence|]. split; [exact (ls_collapsed k _ url title false next eq_refl T X F)|].
              apply in_or_app. right. left. reflexivity.
           ++ assert (F' : ~ bracket_follows next) by (intro Q; apply follows_iff in Q; congruence).
              exists k. eexists. split; [intros c e' Q; congruence|]. split; [exact (ls_external k _ url title false next eq_refl T X F')|].
              apply in_or_app. right. left. reflexivity.
        -- assert (X' : ~ external url) by (intro Q; apply external_iff in Q; congruence). cbn [wbind rbind fst snd] in H. injection H as <- <-.
           exists k, None. split; [intros c e' Q; congruence|]. split; [|exact Logic.I]. unfold format_inline_link. rewrite suffix_is.
           exact (ls_relative k _ url title false next eq_refl T X').
Qed.

Lemma has_image_is : forall n, has_image n = existsb is_image (node_children n).
Proof.
  intro n. unfold has_image. induction (node_children n) as [|c cs IH]; [reflexivity|]. cbn [find existsb]. unfold is_image at 1.
  destruct (node_value c); cbn [orb]; try exact IH; reflexivity.
Qed.
Lemma stands_embedded : forall m next n, stands m next n -> forall text evs, inline_content U ENT o src n = Ok (text, evs) ->
  exists a w b e1 em e2, collect_inline U ENT o src next m = Ok (w, em) /\ text = a ++ w ++ b /\ evs = e1 ++ em ++ e2.
Proof.
  intros m next n H. induction H as [v p a b ->|v p cs c I V H IH]; intros text evs E; unfold inline_content in E; cbn [node_children] in E.
  - assert (W : In (collect_inline U ENT o src (hd_error b) m) (with_next (collect_inline U ENT o src) (a ++ m :: b))).
    { clear. induction a as [|c a IH]; cbn [app with_next]; [left; reflexivity|right; exact IH]. }
    destruct (wcat_in _ _ W _ _ E) as (x & w & y & e1 & em & e2 & -> & -> & ->). exists x, w, y, e1, em, e2. auto.
  - assert (W : exists nx, In (collect_inline U ENT o src nx c) (with_next (collect_inline U ENT o src) cs)).
    { clear - I. induction cs as [|d cs IHc]; [destruct I|]. cbn [with_next]. destruct I as [->|I]; [eexists; left; reflexivity|].
      destruct (IHc I) as [nx J]. exists nx. right. exact J. }
    destruct W as [nx W]. destruct (wcat_in _ _ W _ _ E) as (x & w & y & e1 & em & e2 & Ec & -> & ->). clear W E.
    assert (G : exists k l r, inline_content U ENT o src c = Ok (k, em) /\ w = l ++ k ++ r).
    { destruct c as [vc pc cc]. unfold inline_content. cbn [node_children node_value] in *. cbn [collect_inline] in Ec. cbv zeta in Ec.
      destruct vc; try contradiction; try (exists w, [], []; rewrite app_nil_r; split; [exact Ec|reflexivity]).
      - destruct (emphasis_delimiter src _) as [d|]; [|discriminate]. cbn [rbind] in Ec. destruct (wcat _) as [[k e]|]; [|discriminate].
        injection Ec as <- <-. exists k, [d], [d]. cbn [fst snd]. rewrite app_nil_r. auto.
      - destruct (strong_delimiter src _) as [d|]; [|discriminate]. cbn [rbind] in Ec. destruct (wcat _) as [[k e]|]; [|discriminate].
        injection Ec as <- <-. exists k, d, d. cbn [fst snd]. rewrite app_nil_r. auto. }
    destruct G as (k & l & r & K & ->). destruct (IH _ _ K) as (a & wm & b & f1 & fm & f2 & Em & -> & ->).
    exists (x ++ l ++ a), wm, (b ++ r ++ y), (e1 ++ f1), fm, (f2 ++ e2). rewrite <- !app_assoc. auto.
Qed.

(** C50: in the text of a paragraph (or list item, table cell, footnote, ...) a
    link is written as STYLE.md says for its spelling in the source, and the
    definition it needs is asked for.
    U+0001 marks collapsed references inside the program, so the source must not
    have it. *)
Theorem C50_link_style_partial : forall m next n url title source sp text evs,
  stands m next n -> node_value m = NLink url title ->
  extract_source src (node_pos m) = Ok (Some source) -> spelled source sp -> ~ In c_soh source ->
  inline_content U ENT o src n = Ok (text, evs) ->
  exists a w b content use, text = a ++ w ++ b
    /\ (forall c e, inline_content U ENT o src m = Ok (c, e) -> c = content)
    /\ link_style content (raw_text m) url title (has_image m) next sp w use
    /\ match use with Some r => In (EvUse r) evs | None => True end.
Proof.
  intros [v p cs] next n url title source sp text evs H V E S N T. cbn [node_value node_pos node_children] in *. subst v.
  destruct (stands_embedded _ _ _ H _ _ T) as (a & w & b & e1 & em & e2 & W & -> & ->).
  destruct (link_styled _ _ _ _ _ _ _ _ _ E S N W) as (content & use & C & L & I). exists a, w, b, content, use.
  split; [reflexivity|]. split; [exact C|]. split; [rewrite has_image_is; exact L|]. destruct use; [|exact Logic.I]. apply in_or_app. right. apply in_or_app. left. exact I.
Qed.

(** C50: a link in a heading, with the text a reader sees, and never collapsed. *)
Theorem C50_heading_link_partial : forall p cs url title source sp x evs,
  let m := Node (NLink url title) p cs in
  extract_source src p = Ok (Some source) -> spelled source sp -> ~ In c_soh source ->
  (sp = WithUrl -> title <> [] \/ raw_text m <> url) ->
  collect_text U ENT o src m = Ok (x, evs) ->
  exists use, link_style (raw_text m) (raw_text m) url title false None sp x use
    /\ evs = match use with Some r => [EvUse r] | None => [] end.
Proof.
  intros p cs url title source sp x evs m E S N A H. pose proof (spelled_free _ _ S N) as M. apply spelled_style in S.
  unfold m in *. cbn [collect_text] in H. unfold reference_style_of in H. rewrite E in H. cbn [rbind] in H. rewrite S in H.
  destruct (style_of_spelling sp) as [[t l]|] eqn:SS.
  - exact (reference_styled _ _ _ _ None _ _ _ _ _ SS M H).
  - assert (W : sp = WithUrl) by (destruct sp; try discriminate; reflexivity). subst sp. specialize (A eq_refl).
    set (raw := raw_text (Node (NLink url title) p cs)) in *. destruct (is_external_url url) eqn:X.
    + apply external_iff in X. unfold format_external_link, wuse in H. cbv zeta in H. rewrite unbroken_is in H. injection H as <- <-.
      eexists (Some _). split; [|reflexivity]. apply ls_external; [reflexivity|exact A|exact X|]. intros (m' & Q & _). discriminate.
    + injection H as <- <-. exists None. split; [|reflexivity]. unfold format_inline_link. rewrite suffix_is.
      apply ls_relative; [reflexivity|exact A|]. intro Q. apply external_iff in Q. congruence.
Qed.
End Links.
Print Assumptions C50_link_style_partial.
Print Assumptions C50_heading_link_partial.

(** ** Examples *)
Definition src50 : list str := [lit "See [*the* docs](https://d.e ""T"")[^1], [our  page][o], [x][],";
  lit "[./r.md](./r.md), <https://f.g>, **[here](#h)** and [![i](i.png)](https://b.c)"].
Definition t50 (l : nat) (t : string) (a : nat) : node := Node (NText (lit t)) (mkPos l a l (a + String.length t - 1)) [].
Definition n50 (v : value) (l a b : nat) (cs : list node) : node := Node v (mkPos l a l b) cs.
Definition docs50 : node := n50 (NLink (lit "https://d.e") (lit "T")) 1 5 33 [n50 NEmph 1 6 10 [t50 1 "the" 7]; t50 1 " docs" 11].
Definition note50 : node := n50 (NFootnoteReference (lit "1")) 1 34 37 [].
Definition here50 : node := n50 (NLink (lit "#h") []) 2 36 45 [t50 2 "here" 37].
Definition par50 : node := Node NParagraph (mkPos 1 1 2 78)
  [t50 1 "See " 1; docs50; note50;
   t50 1 ", " 38; n50 (NLink (lit "o.md") []) 1 40 53 [t50 1 "our page" 41]; t50 1 ", " 54;
   n50 (NLink (lit "x.md") []) 1 56 60 [t50 1 "x" 57]; t50 1 "," 61; n50 NSoftBreak 1 62 62 [];
   n50 (NLink (lit "./r.md") []) 2 1 16 [t50 2 "./r.md" 2]; t50 2 ", " 17;
   n50 (NLink (lit "https://f.g") []) 2 19 31 [t50 2 "https://f.g" 20]; t50 2 ", " 32;
   n50 NStrong 2 34 47 [here50]; t50 2 " and " 48;
   n50 (NLink (lit "https://b.c") []) 2 53 78 [n50 (NImage (lit "i.png") []) 2 54 64 [t50 2 "i" 56]]].
Example C50_example :
  inline_content uni_ascii ent42 default_options src50 par50
  = Ok (lit "See [*the* docs][][^1], [our page][o], [x][]," ++ [c_nul]
        ++ lit "<./r.md>, <https://f.g>, **[here](#h)** and [![i](i.png)](https://b.c)",
        [EvUse (mkRef (lit "*the* docs") (lit "https://d.e") (lit "T")); EvUse (mkRef (lit "o") (lit "o.md") []);
         EvUse (mkRef (lit "x") (lit "x.md") [])])
  /\ stands docs50 (Some note50) par50 /\ stands here50 None par50
  /\ (exists source, extract_source src50 (node_pos docs50) = Ok (Some source) /\ spelled source WithUrl /\ ~ In c_soh source)
  /\ link_style (lit "*the* docs") (lit "the docs") (lit "https://d.e") (lit "T") false (Some note50) WithUrl
       (lit "[*the* docs][]") (Some (mkRef (lit "*the* docs") (lit "https://d.e") (lit "T"))).
Proof.
  split; [vm_compute; reflexivity|]. split; [unfold par50; apply (st_here docs50 (Some note50) NParagraph _ [t50 1 "See " 1] _); reflexivity|].
  split.
  { unfold par50. apply (st_below here50 None _ _ _ (n50 NStrong 2 34 47 [here50])); [|exact Logic.I|].
    - do 13 right. left. reflexivity.
    - exact (st_here here50 None NStrong _ [] [] eq_refl). }
  split.
  - exists (lit "[*the* docs](https://d.e ""T"")"). split; [vm_compute; reflexivity|]. split.
    + apply (sp_inline (lit "*the* docs") (lit "https://d.e ""T"")")).
      repeat (apply paired_char; [discriminate|discriminate|]). apply paired_nil.
    + intro H. vm_compute in H. repeat (destruct H as [H|H]; [discriminate H|]). exact H.
  - apply (ls_collapsed (lit "*the* docs") (lit "the docs")); [reflexivity|left; discriminate| |].
    + exists (lit "d.e"). right. reflexivity.
    + exists note50. split; [reflexivity|exact Logic.I].
Qed.

(** ** Refutations *)
(** STYLE.md 308-323: "When a shortcut reference would be immediately followed by
    text starting with a bracket, use collapsed reference syntax".  Only
    footnotes, links and images are looked for: before text with a bracket the
    shortcut stays, and the link is none any more. *)
Theorem C50_bracket_refuted : exists source cs out ds seen, misread46 source cs out ds seen.
Proof.
  exists "[foo](https://x.y)[bar]"%string. exists [nd46 (NLink (lit "https://x.y") []) 1 18 [t46 "foo" 2 4]; t46 "[bar]" 19 23].
  exists "[foo][bar]"%string, [("foo", ("https://x.y", ""))]%string, "[foo][bar]"%string. misread.
Qed.
Print Assumptions C50_bracket_refuted.

(** In a heading no reference is collapsed: two links side by side become one. *)
Definition refuses50 (source : string) (cs : list node) (out : str) (ds : list (string * (string * string))) : Prop :=
  read_with [] (lit source) = flat_map verbatim cs
  /\ run47 [lit "### " ++ lit source] [nd46 (NHeading 3) 1 (4 + String.length source) cs] = Ok (lit "### " ++ out ++ [c_nl] ++ definition_lines ds)
  /\ read_with ds out <> flat_map verbatim cs.
Theorem C50_heading_bracket_refuted : exists source cs out ds, refuses50 source cs out ds.
Proof.
  exists "[a](https://x)[b](https://y)"%string.
  exists [nd46 (NLink (lit "https://x") []) 5 18 [t46 "a" 6 6]; nd46 (NLink (lit "https://y") []) 19 32 [t46 "b" 20 20]].
  exists (lit "[a][b]"), [("a", ("https://x", "")); ("b", ("https://y", ""))]%string.
  split; [vm_compute; reflexivity|]. split; [vm_compute; reflexivity|]. vm_compute. discriminate.
Qed.
Print Assumptions C50_heading_bracket_refuted.
(** In a heading a link that is its own text is no longer written between angle
    brackets: it gets a definition that repeats it. *)
Theorem C50_heading_angle_refuted : exists src n x evs, collect_text uni_ascii ent42 default_options src n = Ok (x, evs)
  /\ (exists url source, node_value n = NLink url [] /\ raw_text n = url /\ extract_source src (node_pos n) = Ok (Some source) /\ spelled source WithUrl)
  /\ forall content next use, ~ link_style content (lit "https://f.g") (lit "https://f.g") [] false next WithUrl x use.
Proof.
  exists [lit "### <https://f.g>"], (n50 (NLink (lit "https://f.g") []) 1 5 17 [t50 1 "https://f.g" 6]). do 2 eexists.
  split; [vm_compute; reflexivity|]. split.
  { exists (lit "https://f.g"), (lit "<https://f.g>"). split; [reflexivity|]. split; [reflexivity|]. split; [vm_compute; reflexivity|].
    apply sp_url. intro H. vm_compute in H. repeat (destruct H as [H|H]; [discriminate H|]). exact H. }
  intros content next use H. inversion H; subst; try discriminate; try congruence.
  - match goal with Q : _ \/ _ |- _ => destruct Q as [Q|Q]; apply Q; reflexivity end.
  - match goal with Q : _ \/ _ |- _ => destruct Q as [Q|Q]; apply Q; reflexivity end.
  - match goal with Q : _ \/ _ |- _ => destruct Q as [Q|Q]; apply Q; reflexivity end.
Qed.
Print Assumptions C50_heading_angle_refuted.
