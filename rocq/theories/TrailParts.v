(** White space at the ends of lines: the texts of code blocks, tables, items,
    definitions and footnotes. *)
From Coq Require Import Bool Arith NArith Lia ZifyBool ZifyNat ZifyN String List.
From Verif Require Import Base BaseFacts EscapeModel OptsModel WrapModel CodeModel TableModel HeadingModel AstModel StateModel
  InlineModel SerModel SpecCode SpecWrap SpecState SpecEnd SpecTrail WrapProof CodeProof SerFacts EndProof EndDoc DiffProof TrailText.
Import ListNotations.

Definition black (s : str) : Prop := ends (fun c => is_ws c = false) s.
Section Parts.
Variable U : Uni.
Variable o : Options.
Variable B : backend.
Variable hard : bool.
Variable checks : bool.
Notation closed := (closed hard).
Notation fit := (fit hard).

Lemma line_fit : forall l, one_line l -> ~ dangles l -> l <> [] -> fit (l ++ [c_nl]).
Proof.
  intros l O D N. split; [apply line_closed; assumption|]. destruct l as [|c l]; [congruence|]. exists c, (l ++ [c_nl]). split; [reflexivity|].
  intros ->. apply O. left. reflexivity.
Qed.
Lemma one_lit : forall x, forallb (fun c => negb (ceq c c_nl)) x = true -> one_line x.
Proof. intros x H J. rewrite forallb_forall in H. specialize (H _ J). apply negb_true_iff, ceq_false in H. congruence. Qed.
Ltac ol := first [exact one_nil | apply one_spaces | assumption | apply one_lit; reflexivity].
Lemma one_quote : forall q : bool, one_line (if q then lit "> " else []).
Proof. intros []; ol. Qed.
Lemma lines_one : forall s, Forall one_line (lines s).
Proof.
  assert (S : forall x, one_line x -> one_line (strip_cr x)).
  { intros x H. unfold strip_cr. destruct (rev x) as [|c r] eqn:R; [exact H|]. destruct (ceq c c_cr); [|exact H].
    assert (Q : x = rev r ++ [c]) by (rewrite <- (rev_involutive x), R; reflexivity). rewrite Q in H. intro J. apply H. apply in_app_iff. auto. }
  assert (G : forall s cur, one_line cur -> Forall one_line (lines_aux cur s)).
  { induction s as [|c s IH]; intros cur H; cbn [lines_aux].
    - destruct (is_nil cur); repeat constructor. intro J. apply in_rev in J. exact (H J).
    - destruct (ceq c c_nl) eqn:Q; [constructor; [apply S; intro J; apply in_rev in J; exact (H J)|apply IH; exact one_nil]|].
      apply IH. intros [J|J]; [apply ceq_false in Q; congruence|exact (H J)]. }
  intro s. apply G. exact one_nil.
Qed.

(** ** Code *)
Lemma fence_black : forall n, 1 <= n -> black (repc (fence_char_char (fence_char o)) n).
Proof. intros n L. apply ends_repc; [|exact L]. destruct (fence_char o); reflexivity. Qed.
Lemma fence_one : forall n, one_line (repc (fence_char_char (fence_char o)) n).
Proof. intro n. apply one_repc. destruct (fence_char o); discriminate. Qed.
Lemma open_fence : forall p n info, 1 <= n -> one_line p -> one_line (block_info o info) -> ~ dangles (block_info o info) ->
  fit (p ++ repc (fence_char_char (fence_char o)) n ++ info_suffix o (block_info o info) ++ [c_nl]).
Proof.
  intros p n info L P I1 I2. apply line_app; [exact P|]. pose proof (fence_black n L) as Fb. pose proof (fence_one n) as Fo.
  set (f := repc _ n) in *. clearbody f. unfold info_suffix. destruct (block_info o info) as [|c i] eqn:Q; cbn [is_nil].
  - cbn [app]. apply black_line; assumption.
  - rewrite !app_assoc. apply line_fit.
    + repeat apply one_app; try assumption. destruct (space_after_fence o); ol.
    + intro D. apply I2. apply (dangles_tail (f ++ (if space_after_fence o then [c_sp] else []))); [|discriminate]. exact D.
    + intro Z. apply app_eq_nil in Z. destruct Z as [_ Z]. discriminate Z.
Qed.
Lemma plain_lines : forall (p : str -> str) ls, Forall one_line ls -> Forall (fun l => ~ dangles l) ls ->
  (forall l, one_line l -> ~ dangles l -> In l ls -> one_line (p l) /\ ~ dangles (p l)) ->
  closed (flat_map (fun l => p l ++ [c_nl]) ls).
Proof.
  intros p ls O D H. apply closed_flat. rewrite Forall_forall in *. intros l J. destruct (H l (O l J) (D l J) J). apply line_closed; assumption.
Qed.
Lemma after_fit : forall x y, fit x -> closed y -> fit (x ++ y). Proof. intros. apply fit_app; assumption. Qed.
Lemma code_fit : forall q n info l, neat_code o B info l -> fit (fst (code_block o B q n info l)).
Proof.
  intros q n info l (I1 & I2 & C). unfold code_block. destruct (code_parts o B n info l) as [[oi content] eff] eqn:P.
  destruct (code_parts_settles _ _ _ _ _ _ _ _ P) as (-> & failed & S & _). cbn [fst].
  specialize (C _ _ _ _ S). pose proof (lines_one content) as O. unfold fence_for. set (m := Nat.max _ _).
  assert (L : 1 <= m) by (unfold m; lia). clearbody m.
  pose proof (open_fence (if q then lit "> " else []) m info L (one_quote q) I1 I2) as A.
  assert (M : closed (flat_map (fun line => (if q then (if is_nil line then lit ">" else lit "> ") else []) ++ line ++ [c_nl]) (lines content))).
  { apply closed_flat. rewrite Forall_forall in *. intros x J. rewrite app_assoc. apply line_closed.
    - apply one_app; [destruct q; [destruct (is_nil x)|]; ol|exact (O x J)].
    - destruct x as [|c x]; [destruct q; cbn; [apply black_not; exists [], c_gt; auto|exact dangles_nil]|].
      intro D. apply (C _ J). apply dangles_tail in D; [exact D|discriminate]. }
  assert (Z : fit ((if q then lit "> " else []) ++ repc (fence_char_char (fence_char o)) m ++ [c_nl])).
  { apply line_app; [apply one_quote|]. apply black_line; [apply fence_one|apply fence_black; exact L]. }
  set (fence := repc _ m) in *. set (qq := if q then lit "> " else []) in *.
  replace (qq ++ fence ++ info_suffix o (block_info o info) ++ [c_nl] ++ flat_map (fun line => (if q then (if is_nil line then lit ">" else lit "> ") else []) ++ line ++ [c_nl]) (lines content) ++ qq ++ fence ++ [c_nl])
    with ((qq ++ fence ++ info_suffix o (block_info o info) ++ [c_nl]) ++ flat_map (fun line => (if q then (if is_nil line then lit ">" else lit "> ") else []) ++ line ++ [c_nl]) (lines content) ++ qq ++ fence ++ [c_nl])
    by (rewrite <- !app_assoc; reflexivity).
  apply after_fit; [exact A|]. apply closed_app; [exact M|apply Z].
Qed.
Lemma indented_line : forall indent x, one_line indent -> one_line x -> ~ dangles x -> closed ((if is_nil x then [] else indent ++ x) ++ [c_nl]).
Proof.
  intros indent x H O D. destruct x as [|c x]; [exact (nl_closed hard)|]. cbn [is_nil]. apply line_closed; [apply one_app; assumption|].
  intro Z. apply D. apply dangles_tail in Z; [exact Z|discriminate].
Qed.
Lemma code_indented_fit : forall q n info l base, one_line base -> neat_code o B info l ->
  (q = true -> forall k content calls failed, settles o B k info l content calls failed -> Forall (fun x => x <> []) (lines content)) ->
  fit (fst (code_block_indented o B q n info l base)).
Proof.
  intros q n info l base Bo (I1 & I2 & C) Un. unfold code_block_indented. destruct (code_parts o B n info l) as [[oi content] eff] eqn:P.
  destruct (code_parts_settles _ _ _ _ _ _ _ _ P) as (-> & failed & S & _). cbn [fst].
  specialize (C _ _ _ _ S). pose proof (lines_one content) as O. unfold fence_for. set (m := Nat.max _ _).
  assert (L : 1 <= m) by (unfold m; lia). clearbody m.
  pose proof (open_fence [] m info L one_nil I1 I2) as A. cbn [app] in A.
  assert (M : closed (flat_map (fun line => (if q then lit "> " else []) ++ (if is_nil line then [] else base ++ line) ++ [c_nl]) (lines content))).
  { apply closed_flat. destruct q.
    - specialize (Un eq_refl _ _ _ _ S). rewrite Forall_forall in *. intros x J. destruct x as [|c x]; [destruct (Un _ J eq_refl)|]. cbn [is_nil].
      rewrite app_assoc. apply line_closed; [apply one_app; [ol|apply one_app; [exact Bo|exact (O _ J)]]|].
      intro D. apply (C _ J). apply dangles_tail in D; [apply dangles_tail in D; [exact D|discriminate]|]. destruct base; discriminate.
    - rewrite Forall_forall in *. intros x J. apply indented_line; [exact Bo|exact (O x J)|exact (C x J)]. }
  assert (Z : fit ((if q then lit "> " else []) ++ base ++ repc (fence_char_char (fence_char o)) m ++ [c_nl])).
  { apply line_app; [apply one_quote|]. apply line_app; [exact Bo|]. apply black_line; [apply fence_one|apply fence_black; exact L]. }
  set (fence := repc _ m) in *. set (body := flat_map _ _) in *. clearbody body.
  pose proof (after_fit _ _ A (closed_app hard _ _ M (proj1 Z))) as G. rewrite <- !app_assoc in G. exact G.
Qed.
Lemma code_with_indent_fit : forall n info l base, one_line base -> neat_code o B info l ->
  fit (fst (code_block_with_indent o B n info l base)).
Proof.
  intros n info l base Bo (I1 & I2 & C). unfold code_block_with_indent. cbv zeta. destruct (code_parts o B n info l) as [[oi content] eff] eqn:P.
  destruct (code_parts_settles _ _ _ _ _ _ _ _ P) as (-> & failed & S & _). cbn [fst].
  specialize (C _ _ _ _ S). pose proof (lines_one content) as O.
  assert (F : exists m, 1 <= m /\ (if contains_sub (repc (fence_char_char (fence_char o)) (min_fence_length o)) content
      then repc (fence_char_char (fence_char o)) (min_fence_length o + 1) else repc (fence_char_char (fence_char o)) (min_fence_length o))
      = repc (fence_char_char (fence_char o)) m).
  { destruct (min_fence_length o) as [|k] eqn:M.
    - unfold repc at 1. cbn [repeat]. rewrite contains_nil. exists 1. split; [lia|reflexivity].
    - destruct (contains_sub _ _); eexists; (split; [|reflexivity]); lia. }
  destruct F as (m & L & F). rewrite F. clear F.
  pose proof (open_fence [] m info L one_nil I1 I2) as A. cbn [app] in A.
  assert (M : closed (flat_map (fun line => (if is_nil line then [] else base ++ line) ++ [c_nl]) (lines content))).
  { apply closed_flat. rewrite Forall_forall in *. intros x J. apply indented_line; [exact Bo|exact (O x J)|exact (C x J)]. }
  assert (N : closed (if negb (ends_with [c_nl] content) && negb (is_nil content) then [c_nl] else [])).
  { destruct (_ && _); [exact (nl_closed hard)|exact (closed_nil hard)]. }
  assert (Z : fit (base ++ repc (fence_char_char (fence_char o)) m ++ [c_nl])).
  { apply line_app; [exact Bo|]. apply black_line; [apply fence_one|apply fence_black; exact L]. }
  set (fence := repc _ m) in *. set (body := flat_map _ _) in *. clearbody body. set (e := if negb _ && _ then _ else _) in *. clearbody e.
  pose proof (after_fit _ _ A (closed_app hard _ _ M (closed_app hard _ _ N (proj1 Z)))) as G. rewrite <- !app_assoc in G. exact G.
Qed.

(** ** Tables *)
Lemma escape_incl : forall x, one_line x -> one_line (escape_table_cell x).
Proof.
  assert (G : forall n x, List.length x <= n -> one_line x -> one_line (escape_table_cell x)).
  { induction n as [|n IH]; intros x L O; [destruct x; [exact one_nil|cbn in L; lia]|].
    destruct x as [|c x]; [exact one_nil|]. cbn [List.length] in L. cbn [escape_table_cell].
    assert (Oc : c <> c_nl) by (intros ->; apply O; left; reflexivity). assert (Ox : one_line x) by (intro J; apply O; right; exact J).
    destruct (ceq c c_bs).
    - destruct x as [|d x]; [intros [J|[]]; congruence|]. cbn [List.length] in L.
      assert (Od : d <> c_nl) by (intros ->; apply Ox; left; reflexivity).
      assert (Oy : one_line (escape_table_cell x)) by (apply IH; [lia|intro J; apply Ox; right; exact J]).
      intros [J|[J|J]]; [congruence|congruence|exact (Oy J)].
    - assert (Oy : one_line (escape_table_cell x)) by (apply IH; [lia|exact Ox]).
      destruct (ceq c c_pipe); [intros [J|[J|J]]; [discriminate J|discriminate J|exact (Oy J)]|intros [J|J]; [congruence|exact (Oy J)]]. }
  intros x. exact (G _ x (le_n _)).
Qed.
Lemma cell_one : forall c w a, one_line c -> one_line (format_cell_aligned U c w a).
Proof. intros c w a O. unfold format_cell_aligned. cbv zeta. destruct a; repeat apply one_app; ol. Qed.
Lemma cells_one : forall cells ws aligns, Forall one_line cells -> one_line (row_cells_text U ws aligns cells).
Proof.
  induction cells as [|c cells IH]; intros ws aligns H; cbn [row_cells_text]; [ol|]. apply Forall_cons_iff in H. destruct H as [Hc H].
  apply one_app; [ol|]. apply one_app; [apply cell_one; exact Hc|]. apply one_app; [ol|]. apply IH. exact H.
Qed.
Lemma delimiters_one : forall aligns ws, one_line (delimiter_cells_text ws aligns).
Proof.
  assert (C : one_line [c_colon]) by ol. assert (R : forall n, one_line (repc c_dash n)) by (intro; apply one_repc; discriminate).
  induction aligns as [|a aligns IH]; intros ws; cbn [delimiter_cells_text]; [ol|].
  apply one_app; [ol|]. apply one_app; [unfold delimiter_cell; destruct a; repeat apply one_app; auto|]. apply one_app; [ol|]. apply IH.
Qed.
Lemma row_black : forall cells ws aligns, black ([c_pipe] ++ row_cells_text U ws aligns cells).
Proof.
  assert (Z : forall cells ws aligns x, black x -> black (x ++ row_cells_text U ws aligns cells)).
  { induction cells as [|c cells IH]; intros ws aligns x X; cbn [row_cells_text]; [rewrite app_nil_r; exact X|].
    rewrite !app_assoc. apply IH. unfold black. apply (ends_app _ _ (lit " |")). apply (ends_one _ [c_sp]). reflexivity. }
  intros cells ws aligns. apply Z. apply (ends_one _ []). reflexivity.
Qed.
Lemma delimiters_black : forall aligns ws, black ([c_pipe] ++ delimiter_cells_text ws aligns).
Proof.
  assert (Z : forall aligns ws x, black x -> black (x ++ delimiter_cells_text ws aligns)).
  { induction aligns as [|c aligns IH]; intros ws x X; cbn [delimiter_cells_text]; [rewrite app_nil_r; exact X|].
    rewrite !app_assoc. apply IH. unfold black. apply (ends_app _ _ (lit " |")). apply (ends_one _ [c_sp]). reflexivity. }
  intros aligns ws. apply Z. apply (ends_one _ []). reflexivity.
Qed.
Lemma row_fit : forall q ws aligns cells, Forall one_line cells -> fit (row_text U q ws aligns cells).
Proof.
  intros q ws aligns cells H. unfold row_text. apply line_app; [apply one_quote|]. rewrite app_assoc. apply black_line; [|apply row_black].
  apply one_app; [ol|apply cells_one; exact H].
Qed.
Lemma table_fit : forall q aligns rows, rows <> [] -> Forall (Forall one_line) rows -> fit (table_text U q aligns rows).
Proof.
  intros q aligns rows N H. unfold table_text.
  assert (G : Forall (Forall one_line) (map (map escape_table_cell) rows)).
  { apply Forall_map. eapply Forall_impl; [|exact H]. intros r R. apply Forall_map. eapply Forall_impl; [|exact R]. intros c. apply escape_incl. }
  destruct (map (map escape_table_cell) rows) as [|header body] eqn:M; [destruct rows; [contradiction|discriminate M]|].
  cbv zeta. apply Forall_cons_iff in G. destruct G as [Gh Gb]. apply after_fit; [apply row_fit; exact Gh|]. apply closed_app.
  - apply (line_app hard (if q then lit "> " else [])); [apply one_quote|]. rewrite app_assoc. apply black_line; [|apply delimiters_black].
    apply one_app; [ol|apply delimiters_one].
  - apply closed_flat. eapply Forall_impl; [|exact Gb]. intros r R. apply row_fit. exact R.
Qed.

(** ** Headings, items, definitions *)
Lemma heading_fit : forall PN proper common level text,
  full_line (if heading_sentence_case o then to_sentence_case U PN (heading_proper_nouns o ++ proper) (heading_common_nouns o ++ common) text else text) ->
  fit (heading_output U PN o proper common level text).
Proof.
  intros PN proper common level text. unfold heading_output. cbv zeta. set (t := if heading_sentence_case o then _ else _). clearbody t. intros [T1 T2].
  assert (F : fit (t ++ [c_nl])) by (apply black_line; [exact T1|exact T2]).
  assert (Z : forall c, is_ws c = false -> closed (repc c (u_width U t) ++ [c_nl])).
  { intros c W. apply line_closed; [apply one_repc; intros ->; discriminate W|]. destruct (u_width U t) as [|k]; [exact dangles_nil|].
    apply black_not. apply ends_repc; [exact W|lia]. }
  destruct (_ && _); [rewrite app_assoc; apply after_fit; [exact F|apply Z; reflexivity]|].
  destruct (_ && _); [rewrite app_assoc; apply after_fit; [exact F|apply Z; reflexivity]|].
  apply line_app; [apply one_repc; discriminate|]. apply line_app; [ol|exact F].
Qed.
Lemma head_text : forall c task, exists a b, item_head o c task = a ++ b /\ closed a /\ one_line b /\ (list_item_index c <= 1 -> a = []).
Proof.
  intros c task. unfold item_head.
  exists (if negb (list_tight c) && (1 <? list_item_index c) then [c_nl] else []).
  eexists. split; [reflexivity|]. split; [destruct (_ && _); [apply nl_closed|apply closed_nil]|]. split.
  - apply one_app; [apply one_quote|]. apply one_app.
    + cbv zeta. destruct (1 <? list_depth c); [apply one_app; [|apply one_spaces]|]; destruct (_ && _); ol.
    + apply one_app.
      * unfold item_marker. destruct (list_type c) as [[|]|]; [| |ol].
        -- apply one_app; [destruct (_ && _); ol|]. apply one_app; [|apply one_spaces]. destruct (unordered_marker o); ol.
        -- cbv zeta. apply one_app; [apply dec_no_nl|]. apply one_app; [|apply one_spaces].
           destruct (list_depth c mod 2 =? 1); [destruct (odd_level_marker o)|destruct (even_level_marker o)]; ol.
      * destruct task as [[x|]|]; ol.
  - intro L. destruct (1 <? list_item_index c) eqn:Q; [apply Nat.ltb_lt in Q; lia|]. rewrite andb_false_r. reflexivity.
Qed.
Lemma base_one : forall c base, item_base_indent o c = Ok base -> one_line base.
Proof.
  intros c base E. unfold item_base_indent in E. cbv zeta in E.
  destruct (in_description_details c); [destruct (list_depth c =? 0); [discriminate|]|destruct (1 <? list_depth c)];
    (match type of E with Ok ?x = _ => replace base with x by congruence end); [apply one_app; apply one_spaces|apply one_app; apply one_spaces|apply one_spaces].
Qed.
Lemma one_concat : forall l, Forall one_line l -> one_line (List.concat l).
Proof. intros l H. induction H as [|x l X H IH]; [ol|]. cbn [List.concat]. apply one_app; assumption. Qed.
Lemma continuation_one : forall c, one_line (blockquote_prefix c) -> one_line (blockquote_outer_indent c) -> one_line (paragraph_continuation o c).
Proof.
  intros c P O. unfold paragraph_continuation. cbv zeta.
  assert (R : forall n, one_line (List.concat (repeat (lit "    ") n))).
  { intro n. apply one_concat. apply Forall_forall. intros x J. apply repeat_spec in J. subst x. ol. }
  set (base := if in_description_details c && _ then _ else _).
  assert (Z : one_line base) by (unfold base; destruct (_ && _); [apply one_app; [ol|apply one_app; [apply one_spaces|apply R]]|apply R]).
  clearbody base. destruct (in_block_quote c); [repeat apply one_app; assumption|exact Z].
Qed.
Lemma one_replace : forall x, one_line x -> one_line (replace_char c_nul [c_sp] x).
Proof.
  intros x O J. unfold replace_char in J. apply in_flat_map in J. destruct J as (y & Y & J). destruct (ceq y c_nul).
  - destruct J as [J|[]]. discriminate J.
  - destruct J as [J|[]]. subst y. exact (O Y).
Qed.
Lemma reference_fit : forall r, full_reference r -> fit (reference_text r).
Proof.
  intros r [L T [V1 V2]]. unfold reference_text. apply line_app; [ol|]. apply line_app; [apply one_replace; exact L|]. apply line_app; [ol|].
  unfold title_suffix. destruct (is_nil (ref_title r)); [apply black_line; assumption|].
  rewrite !app_assoc. apply black_line; [repeat apply one_app; try assumption; ol|]. apply ends_one. reflexivity.
Qed.

(** ** Footnotes *)
Definition tail_ok (l : str) : Prop := ~ dangles l \/ hard = true /\ hard_end l.
Lemma tail_line : forall l, one_line l -> tail_ok l -> closed (l ++ [c_nl]).
Proof.
  intros l O T. split.
  - intros a b E. assert (a = l) as ->; [|exact T]. clear T. revert a E. induction l as [|c l IH]; intros a E.
    + destruct a as [|d a]; [reflexivity|]. injection E as _ E. destruct a; discriminate E.
    + destruct a as [|d a]; [exfalso; injection E as Q _; apply O; left; exact Q|]. injection E as -> E. f_equal. apply IH; [|exact E].
      intro J. apply O. right. exact J.
  - intros (x & c & E & W & N). apply app_inj_tail in E. destruct E as [_ <-]. congruence.
Qed.
Lemma tail_app : forall p l, l <> [] -> tail_ok l -> tail_ok (p ++ l).
Proof.
  intros p l N [T|[H T]]; [left|right].
  - intro D. apply T. apply (dangles_tail p); assumption.
  - split; [exact H|]. apply hard_end_app. exact T.
Qed.
Lemma neat_prefix : forall x y, neat hard (x ++ y) -> neat hard x.
Proof. intros x y N a b E. apply (N a (b ++ y)). rewrite E, <- app_assoc. reflexivity. Qed.
Lemma strip_cr_id : forall l, tail_ok l -> strip_cr l = l.
Proof.
  intros l T. unfold strip_cr. destruct (rev l) as [|c r] eqn:R; [reflexivity|]. destruct (ceq c c_cr) eqn:Q; [|reflexivity]. exfalso.
  apply ceq_true in Q. subst c. assert (E : l = rev r ++ [c_cr]) by (rewrite <- (rev_involutive l), R; reflexivity). destruct T as [T|[_ (x & c & Z & _)]].
  - apply T. exists (rev r), c_cr. split; [exact E|]. split; [reflexivity|discriminate].
  - rewrite E in Z. change [c; c_sp; c_sp] with ([c; c_sp] ++ [c_sp]) in Z. rewrite app_assoc in Z. apply app_inj_tail in Z. destruct Z as [_ Z]. discriminate Z.
Qed.
Lemma lines_tails : forall s, closed s -> Forall tail_ok (lines s).
Proof.
  assert (G : forall s cur, closed (rev cur ++ s) -> Forall tail_ok (lines_aux cur s)).
  { induction s as [|c s IH]; intros cur [C1 C2]; cbn [lines_aux].
    - rewrite app_nil_r in *. destruct (is_nil cur); [constructor|constructor; [left; exact C2|constructor]].
    - destruct (ceq c c_nl) eqn:Q.
      + apply ceq_true in Q. subst c. assert (T : tail_ok (rev cur)) by exact (C1 _ _ eq_refl). constructor; [rewrite (strip_cr_id _ T); exact T|].
        apply IH. cbn [rev app]. split.
        * intros a b ->. assert (Z : tail_ok (rev cur ++ c_nl :: a)) by (apply (C1 _ b); rewrite <- app_assoc; reflexivity).
          destruct Z as [Z|[Z1 (x & d & Z2 & Z3)]].
          -- left. intro D. apply Z. destruct D as (y & d & -> & W). exists (rev cur ++ c_nl :: y), d. split; [rewrite <- app_assoc; reflexivity|exact W].
          -- destruct (list_eq_dec N.eq_dec a []) as [->|Na]; [left; exact dangles_nil|].
             right. split; [exact Z1|]. revert Z2 Z3. clear - Na. intros Z2 Z3.
             assert (Q : exists y, rev cur ++ [c_nl] ++ a = y ++ a /\ True) by (exists (rev cur ++ [c_nl]); rewrite <- app_assoc; auto).
             change (rev cur ++ [c_nl] ++ a = x ++ [d] ++ [c_sp] ++ [c_sp]) in Z2. rewrite !app_assoc in Z2.
             destruct (exists_last Na) as (a1 & e1 & ->). rewrite app_assoc in Z2. apply app_inj_tail in Z2. destruct Z2 as [Z2 ->].
             destruct (list_eq_dec N.eq_dec a1 []) as [->|Na1].
             { rewrite app_nil_r in Z2. apply app_inj_tail in Z2. destruct Z2 as [_ Z2]. discriminate Z2. }
             destruct (exists_last Na1) as (a2 & e2 & ->). rewrite app_assoc in Z2. apply app_inj_tail in Z2. destruct Z2 as [Z2 ->].
             destruct (list_eq_dec N.eq_dec a2 []) as [->|Na2].
             { rewrite app_nil_r in Z2. apply app_inj_tail in Z2. destruct Z2 as [_ Z2]. subst d. discriminate Z3. }
             destruct (exists_last Na2) as (a3 & e3 & ->). rewrite app_assoc in Z2. apply app_inj_tail in Z2. destruct Z2 as [Z2 ->].
             exists a3, d. split; [rewrite <- !app_assoc; reflexivity|exact Z3].
        * intro D. apply C2. destruct D as (y & d & -> & W). exists (rev cur ++ c_nl :: y), d. split; [rewrite <- app_assoc; reflexivity|exact W].
      + apply IH. cbn [rev]. rewrite <- app_assoc. split; assumption. }
  intros s C. apply G. exact C.
Qed.
Lemma lines_first : forall s, fit s -> exists l r, lines s = l :: r /\ l <> [].
Proof.
  assert (G : forall s cur, closed (rev cur ++ s) -> cur <> [] -> exists l r, lines_aux cur s = l :: r /\ l <> []).
  { assert (N : forall cur : str, cur <> [] -> rev cur <> []) by (intros cur N Z; apply N; rewrite <- (rev_involutive cur), Z; reflexivity).
    induction s as [|c s IH]; intros cur C Nc; cbn [lines_aux].
    - destruct cur as [|d cur]; [congruence|]. cbn [is_nil]. do 2 eexists. split; [reflexivity|]. apply N. exact Nc.
    - destruct (ceq c c_nl) eqn:Q.
      + apply ceq_true in Q. subst c. do 2 eexists. split; [reflexivity|]. rewrite strip_cr_id; [apply N; exact Nc|]. exact (proj1 C _ _ eq_refl).
      + apply IH; [|discriminate]. cbn [rev]. rewrite <- app_assoc. exact C. }
  intros s [C (c & r & -> & N)]. unfold lines. cbn [lines_aux]. rewrite (proj2 (ceq_false c c_nl) N). apply G; [exact C|discriminate].
Qed.
Lemma body_fit : forall prefix indent l r, one_line prefix -> one_line indent -> Forall one_line (l :: r) -> Forall tail_ok (l :: r) -> l <> [] ->
  fit (footnote_body prefix indent (l :: r)).
Proof.
  intros prefix indent l r P D O T N. cbn [footnote_body]. apply Forall_cons_iff in O, T. destruct O as [O1 O2], T as [T1 T2].
  apply line_app; [exact P|]. rewrite app_assoc. apply after_fit.
  - split; [apply tail_line; assumption|]. destruct l as [|c l]; [congruence|]. exists c, (l ++ [c_nl]). split; [reflexivity|]. intros ->. apply O1. left. reflexivity.
  - apply closed_flat. rewrite Forall_forall in *. intros x J. destruct x as [|c x]; [apply nl_closed|]. cbn [is_nil].
    apply tail_line; [apply one_app; [exact D|exact (O2 _ J)]|]. apply tail_app; [discriminate|exact (T2 _ J)].
Qed.
Lemma fit_visible : forall t, fit t -> exists x c r, t = x ++ c :: r /\ one_line x /\ is_ws c = false.
Proof.
  intros t [[C1 C2] (c0 & r0 & E & N)].
  assert (G : forall l, one_line l -> l <> [] -> tail_ok l -> exists x c r, l = x ++ c :: r /\ one_line x /\ is_ws c = false).
  { intros l O Nl [T|[_ (x & c & -> & W)]].
    - destruct (exists_last Nl) as (x & c & ->). exists x, c, []. split; [reflexivity|]. split; [intro J; apply O; apply in_app_iff; auto|].
      destruct (is_ws c) eqn:W; [|reflexivity]. exfalso. apply T. exists x, c. split; [reflexivity|]. split; [exact W|]. intros ->. apply O. apply in_app_iff. right. left. reflexivity.
    - exists x, c, [c_sp; c_sp]. split; [reflexivity|]. split; [intro J; apply O; apply in_app_iff; auto|exact W]. }
  assert (S : forall t : str, one_line t \/ exists a b, t = a ++ c_nl :: b /\ one_line a).
  { clear. induction t as [|c t IH]; [left; exact one_nil|]. destruct (N.eq_dec c c_nl) as [->|Q]; [right; exists [], t; split; [reflexivity|exact one_nil]|].
    destruct IH as [O|(a & b & -> & O)]; [left; intros [J|J]; [congruence|exact (O J)]|]. right. exists (c :: a), b. split; [reflexivity|].
    intros [J|J]; [congruence|exact (O J)]. }
  destruct (S t) as [O|(a & b & Q & O)].
  - apply G; [exact O|subst; discriminate|left; exact C2].
  - assert (Na : a <> []) by (intros ->; rewrite Q in E; injection E as Z _; congruence).
    destruct (G a O Na (C1 a b Q)) as (x & c & r & -> & Ox & W). exists x, c, (r ++ c_nl :: b). split; [rewrite Q, <- app_assoc; reflexivity|]. auto.
Qed.
Lemma trim_end_fit : forall t, fit t -> fit (trim_end t).
Proof.
  intros t F. destruct (fit_visible t F) as (x & c & r & E & O & W). destruct F as [[C1 C2] _]. split; [split|].
  - destruct (trim_end_app t) as (y & Q & _). rewrite Q in C1. exact (neat_prefix _ _ C1).
  - apply trim_end_not.
  - destruct (trim_end_app t) as (y & Q & Wy). set (z := trim_end t) in *. clearbody z. clear C1 C2. subst t. destruct z as [|d z].
    + exfalso. cbn [app] in Q. rewrite <- Q in Wy. rewrite Forall_app in Wy. destruct Wy as [_ Wy]. apply Forall_cons_iff in Wy. destruct Wy. congruence.
    + exists d, z. split; [reflexivity|]. intros ->. destruct x as [|e x]; injection Q as Q1 Q2; [subst c; discriminate W|subst e; apply O; left; reflexivity].
Qed.
Lemma blocks_fit : forall name content line text, one_line name -> fit content ->
  footnote_text U o checks (mkFootnote name content line true) = Ok text -> fit text.
Proof.
  intros name content line text O F E. unfold footnote_text in E. cbv zeta in E. cbn [fn_has_blocks fn_name fn_content] in E.
  match type of E with Ok ?x = _ => replace text with x by congruence end. clear E.
  destruct (lines_first _ F) as (l & r & Q & N). assert (L := lines_one content). assert (T := lines_tails content (proj1 F)). rewrite Q in *.
  apply body_fit; try assumption; [|apply one_spaces]. apply one_app; [ol|apply one_app; [exact O|ol]].
Qed.
Lemma words_one : forall s, Forall one_line (split_whitespace s).
Proof.
  intro s. unfold split_whitespace.
  assert (G : forall s cur, one_line cur -> Forall one_line (split_ws_aux cur s)).
  { assert (R : forall cur, one_line cur -> one_line (rev cur)) by (intros cur H J; apply in_rev in J; exact (H J)).
    induction s0 as [|c r IH]; intros cur C; cbn [split_ws_aux].
    - destruct (is_nil cur); repeat constructor. apply R. exact C.
    - destruct (is_ws c) eqn:W.
      + destruct (is_nil cur); [apply IH; exact one_nil|]. constructor; [apply R; exact C|apply IH; exact one_nil].
      + apply IH. intros [J|J]; [subst c; discriminate W|exact (C J)]. }
  apply G. exact one_nil.
Qed.
Lemma note_lines_one : forall fw cw words first cur, Forall one_line words -> one_line cur -> Forall one_line (footnote_lines U fw cw first cur words).
Proof.
  intros fw cw. induction words as [|w words IH]; intros first cur H C; cbn [footnote_lines].
  - destruct (is_nil cur); repeat constructor. exact C.
  - apply Forall_cons_iff in H. destruct H as [Hw Hr]. destruct (is_nil cur); [apply IH; assumption|]. destruct (SerModel.fits _ _).
    + apply IH; [exact Hr|]. repeat apply one_app; try assumption. ol.
    + constructor; [exact C|]. apply IH; assumption.
Qed.
Lemma words_in : forall x c, In c x -> dark c -> split_whitespace (replace_char c_nul [c_sp] (trim x)) <> [].
Proof.
  intros x c J [D1 D2].
  assert (T : In c (trim x)).
  { destruct (trim_app x) as (a & b & E & Wa & Wb). rewrite E in J. rewrite !in_app_iff in J. rewrite Forall_forall in Wa, Wb. destruct J as [J|[J|J]]; [|exact J|].
    - specialize (Wa _ J). congruence.
    - specialize (Wb _ J). congruence. }
  assert (R : In c (replace_char c_nul [c_sp] (trim x))).
  { unfold replace_char. apply in_flat_map. exists c. split; [exact T|]. rewrite (proj2 (ceq_false c c_nul) D2). left. reflexivity. }
  revert R. generalize (replace_char c_nul [c_sp] (trim x)). clear T J. intro s. unfold split_whitespace.
  assert (G : forall s cur, In c s \/ cur <> [] -> split_ws_aux cur s <> []).
  { induction s0 as [|d r IH]; intros cur H; cbn [split_ws_aux].
    - destruct H as [[]|H]. destruct cur; [congruence|discriminate].
    - destruct (is_ws d) eqn:W.
      + destruct cur as [|e cur]; [|discriminate]. cbn [is_nil]. apply IH. destruct H as [[H|H]|H]; [congruence|auto|congruence].
      + apply IH. right. discriminate. }
  intro R. apply G. auto.
Qed.
Lemma words_fit : forall name x line text, one_line name -> (exists c, In c x /\ dark c) ->
  footnote_text U o checks (mkFootnote name (trim x) line false) = Ok text -> fit text.
Proof.
  intros name x line text O (c & J & D) E. unfold footnote_text in E. cbv zeta in E. cbn [fn_has_blocks fn_name fn_content] in E.
  apply rbind_ok in E. destruct E as (fw & _ & E). apply rbind_ok in E. destruct E as (cw & _ & E).
  assert (N := words_in x c J D). set (words := split_whitespace _) in *. assert (Bw : Forall blackened words) by apply split_black.
  assert (Ow : Forall one_line words) by apply words_one. clearbody words. destruct words as [|w words]; [congruence|]. cbn [is_nil] in E. injection E as <-.
  assert (F := lines_black U fw cw (w :: words) true [] Bw (or_introl eq_refl)).
  assert (Z := lines_nonempty U fw cw (w :: words) true [] Bw ltac:(left; discriminate)).
  assert (L := note_lines_one fw cw (w :: words) true [] Ow one_nil). cbn [footnote_lines is_nil] in F, Z, L.
  destruct (footnote_lines U fw cw true w words) as [|l r] eqn:Q; [congruence|].
  change (fit (footnote_body (lit "[^" ++ name ++ lit "]: ") (spaces (byte_len (lit "[^" ++ name ++ lit "]: "))) (l :: r))).
  apply body_fit; [apply one_app; [ol|apply one_app; [exact O|ol]]|apply one_spaces|exact L| |].
  - eapply Forall_impl; [|exact F]. intros y Y. left. apply black_not. exact Y.
  - apply Forall_cons_iff in F. destruct F as [F _]. intros ->. exact (ends_nil _ F).
Qed.
End Parts.
