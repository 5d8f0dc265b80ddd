(** How the serializer lays out nested blocks, and what the reader of
    [SpecBlocks] makes of it. *)
From Coq Require Import Bool Arith NArith Lia ZifyBool ZifyNat ZifyN String List.
From Verif Require Import Base BaseFacts WrapModel SpecWrap WrapProof OptsModel CodeModel HeadingModel TableModel AstModel StateModel InlineModel WarnModel SerModel
  SpecCode SpecHeading SpecRefs SpecBlocks SpecEnd SpecStructure SpecGaps SpecState SpecContext StateProof SerFacts DecFacts DecRead EndProof CodeProof BlocksProof ParaProof NestProof LeafProof LeafTable PropsBlocks StructShift.
Import ListNotations.

(** ** Places *)
Definition outer (p : place) : nat := match p with At a _ _ => a end.
Definition marks (p : place) : nat := match p with At _ k _ => k end.
Definition inner (p : place) : nat := match p with At _ _ d => d end.
(** A line at a place, and what a line that is not empty begins with. *)
Definition lf (p : place) (l : str) : str := ind (4 * outer p) (quo_times (marks p) (ind (4 * inner p) l)).
Definition lead (p : place) : str := spaces (4 * outer p) ++ quote_marks (marks p) ++ spaces (4 * inner p).
Definition ok_place (p : place) : Prop :=
  outer p = 0 /\ (marks p = 0 \/ inner p = 0 \/ marks p = 1) \/ marks p = 1 /\ inner p = 0.
Lemma lf_lead : forall p l, l <> [] -> lf p l = lead p ++ l.
Proof.
  intros p l N. unfold lf, lead. rewrite (ind_cons _ l N).
  assert (N1 : spaces (4 * inner p) ++ l <> []) by (intro K; apply app_eq_nil in K; tauto).
  destruct (quo_times_marks (marks p) _ N1) as [E N2]. rewrite ind_cons by exact N2. rewrite E, <- !app_assoc. reflexivity.
Qed.
Lemma lf_nil : forall p, marks p = 0 -> lf p [] = [].
Proof. intros [a k d] E. cbn in E. subst. reflexivity. Qed.
Lemma quo_times_succ : forall k l, quo_times (S k) l = quo_times k (quo l).
Proof. induction k as [|k IH]; intro l; [reflexivity|]. cbn [quo_times] in *. rewrite IH. reflexivity. Qed.
Lemma quote_marks_succ : forall k, quote_marks (S k) = quote_marks k ++ lit "> ".
Proof.
  intro k. unfold quote_marks. induction k as [|k IH]; [reflexivity|]. cbn [repeat List.concat] in *. rewrite <- app_assoc, <- IH. reflexivity.
Qed.
Lemma ind_zero : forall l, ind 0 l = l.
Proof. intros [|c l]; reflexivity. Qed.
Lemma ind_ind : forall m n l, ind m (ind n l) = ind (m + n) l.
Proof.
  intros m n [|c l]; [reflexivity|]. unfold ind at 2 3. cbn [is_nil]. rewrite ind_cons by (intro K; apply app_eq_nil in K; destruct K; discriminate).
  unfold spaces. rewrite repc_app, app_assoc. reflexivity.
Qed.
Lemma lf_quote : forall k d l, k = 0 \/ d = 0 -> lf (At d (S k) 0) l = lf (At 0 k d) (quo l).
Proof.
  intros k d l H. unfold lf. cbn [outer marks inner]. rewrite quo_times_succ. change (4 * 0) with 0. rewrite !ind_zero.
  destruct H as [->| ->]; [reflexivity|]. change (4 * 0) with 0. rewrite !ind_zero. reflexivity.
Qed.
Lemma lf_item : forall k d l, lf (At 0 k (S d)) l = lf (At 0 k d) (ind 4 l).
Proof. intros k d l. unfold lf. cbn [outer marks inner]. rewrite ind_ind. do 3 f_equal. lia. Qed.
Lemma map_lf_quote : forall k d ls, k = 0 \/ d = 0 -> map (lf (At d (S k) 0)) ls = map (lf (At 0 k d)) (map quo ls).
Proof. intros k d ls H. rewrite map_map. apply map_ext. intro l. apply lf_quote. exact H. Qed.
Lemma map_lf_item : forall k d ls, map (lf (At 0 k (S d))) ls = map (lf (At 0 k d)) (map (ind 4) ls).
Proof. intros k d ls. rewrite map_map. apply map_ext. apply lf_item. Qed.
Lemma text_of_lead : forall p l ls, l <> [] -> text_of (map (lf p) (l :: ls)) = lead p ++ l ++ [c_nl] ++ text_of (map (lf p) ls).
Proof. intros p l ls N. unfold text_of. cbn [map flat_map]. rewrite lf_lead, <- !app_assoc by exact N. reflexivity. Qed.
Lemma text_of_cons : forall l ls, text_of (l :: ls) = l ++ [c_nl] ++ text_of ls.
Proof. intros l ls. unfold text_of. cbn [flat_map]. rewrite <- app_assoc. reflexivity. Qed.
Lemma concat_spaces : forall n, List.concat (repeat (lit "    ") n) = spaces (4 * n).
Proof.
  induction n as [|n IH]; [reflexivity|]. cbn [repeat List.concat]. rewrite IH. replace (4 * S n) with (4 + 4 * n) by lia.
  unfold spaces. rewrite repc_app. reflexivity.
Qed.
Lemma spaces_chars : forall n, Forall line_char (spaces n).
Proof. intro n. apply repc_forall. split; discriminate. Qed.
Lemma quo_chars : forall l, Forall line_char l -> Forall line_char (quo l).
Proof. intros [|c l] H; unfold quo; cbn [is_nil]; [|apply Forall_app; split; [|exact H]]; repeat (constructor; [split; discriminate|]); constructor. Qed.
Lemma ind_chars : forall n l, Forall line_char l -> Forall line_char (ind n l).
Proof. intros n [|c l] H; [constructor|]. rewrite ind_cons by discriminate. apply Forall_app. split; [apply spaces_chars|exact H]. Qed.
Lemma quo_tabbed : forall l, tabbed (quo l) = false.
Proof. intro l. destruct (quo_eq l) as [r ->]. reflexivity. Qed.

(** The context of the serializer at a place. *)
Record ctx_at (p : place) (c : ctx) : Prop := {
  ca_type : list_type c = None <-> inner p = 0;
  ca_quote : in_block_quote c = negb (marks p =? 0);
  ca_prefix : blockquote_prefix c = quote_marks (marks p);
  ca_depth : list_depth c = inner p;
  ca_details : outer p = 0 -> in_description_details c = false;
  ca_first : outer p = 0 -> description_details_first_list c = false;
  ca_indent : list_item_indent c = spaces (4 * inner p);
  ca_outer : blockquote_outer_indent c = spaces (4 * outer p);
  ca_entry : outer p = 0 -> blockquote_entry_list_depth c = 0
}.

(** ** Blocks one after the other *)
Definition blank_lines (k : list str) : Prop := Forall (fun l : str => l = []) k.
Lemma blank_lines_blank : forall k, blank_lines k -> Forall (fun l => is_blank l = true) k.
Proof. intros k H. eapply Forall_impl; [|exact H]. intros l ->. reflexivity. Qed.
Record onward (rest : list str) (bs : list block) : Prop := {
  on_reads : reads rest bs;
  on_calm : calm rest;
  on_item : forall m, next_item rest = Some m -> exists items bs', bs = SpecBlocks.List m items :: bs'
}.
Lemma onward_blanks : forall k rest bs, Forall (fun l => is_blank l = true) k -> onward rest bs -> onward (k ++ rest) bs.
Proof.
  intros k rest bs F [R C I]. constructor.
  - apply reads_blanks; assumption.
  - clear - F C. induction F as [|l k Bl F IH]; [exact C|]. cbn [app calm]. rewrite Bl. exact IH.
  - rewrite next_item_blanks by exact F. exact I.
Qed.
Lemma onward_nil : onward [] [].
Proof. constructor; [apply reads_nil|exact Logic.I|discriminate]. Qed.
Lemma onward_block : forall ls b rest bs, block_lines ls b -> follows b rest bs -> reads rest bs -> onward (ls ++ rest) (b :: bs).
Proof.
  intros ls b rest bs ((l & r & -> & S & H) & K) F R. constructor.
  - apply K; assumption.
  - cbn [app calm]. destruct S as (Bl & S). rewrite Bl. split; assumption.
  - intros m E. cbn [app next_item] in E. destruct S as (Bl & S). rewrite Bl in E.
    destruct b; try (rewrite H in E; discriminate E). destruct H as (w & c & H). rewrite H in E. injection E as <-. eauto.
Qed.
Lemma blank_next_app : forall ls rest, ls <> [] -> blank_next ls -> blank_next (ls ++ rest).
Proof. intros [|l ls] rest N H; [congruence|exact H]. Qed.
Lemma stops_app : forall ls rest, ls <> [] -> stops ls -> stops (ls ++ rest).
Proof. intros [|l ls] rest N H; [congruence|exact H]. Qed.

Lemma untabbed_all : forall o B v p cs, match v with NBlockQuote | NAlert _ | NList _ _ | NItem | NTaskItem _ => True | _ => False end ->
  untabbed o B (Node v p cs) -> Forall (untabbed o B) cs.
Proof.
  intros o B v p cs V H. assert (G : (fix all (l : list node) : Prop := match l with [] => True | c :: r => untabbed o B c /\ all r end) cs) by (destruct v; try contradiction; exact H).
  clear H. induction cs as [|c cs IH]; [constructor|]. destruct G as [G1 G2]. constructor; auto.
Qed.
Lemma ends_dark_last : forall v p cs, match v with NBlockQuote | NAlert _ | NList _ _ | NItem | NTaskItem _ => True | _ => False end ->
  ends_dark (Node v p cs) -> cs <> [] /\ forall d, ends_dark (last cs d).
Proof.
  intros v p cs V H.
  assert (G : (fix final (l : list node) : Prop := match l with [] => False | c :: r => match r with [] => ends_dark c | _ => final r end end) cs) by (destruct v; try contradiction; exact H).
  clear H. induction cs as [|c [|c' cs] IH]; [contradiction|split; [discriminate|intro d; exact G]|]. destruct (IH G) as [_ I]. split; [discriminate|exact I].
Qed.
Lemma trim_quo : forall z, trim_end z = z -> trim_end (quo z) = quo z.
Proof.
  intros z T. destruct (trim_end_last z) as [N|(a & e & Q & Z)].
  - rewrite N in T. subst z. reflexivity.
  - rewrite T in Q. subst z. assert (N : a ++ [e] <> []) by (intro K; apply app_eq_nil in K; destruct K; discriminate). unfold quo. destruct (is_nil (a ++ [e])) eqn:K; [reflexivity|].
    rewrite app_assoc. apply trim_end_snoc_id. exact Z.
Qed.

Lemma trim_fence : forall o content, trim_end (fence_of o content) = fence_of o content.
Proof.
  intros o content. unfold fence_of. generalize (Nat.max (min_fence_length o) (max_fence_in_content (fence_char_char (fence_char o)) content + 1)). intros [|n]; [reflexivity|].
  unfold repc. cbn [repeat]. rewrite repeat_cons. apply trim_end_snoc_id. destruct (fence_char o); reflexivity.
Qed.

Section Struct.
Variable U : Uni.
Variable PN : list (str * str).
Variable ENT : str -> option str.
Variable o : Options.
Variable B : backend.
Variable src : list str.
Variable ends_nl : bool.
Variable checks : bool.
Hypothesis cols : four_columns o.
Notation ser := (serialize U PN ENT o B src ends_nl checks).
Notation good := (SpecStructure.good U PN ENT o B src).
Notation good_item := (SpecStructure.good_item U PN ENT o B src).
Notation same := (SpecStructure.same U PN ENT o B src).
Notation same_item := (SpecStructure.same_item U PN ENT o B src).
Notation para_text := (SpecStructure.para_text U ENT o src).
Notation mark_at := (list_marker o).

(** Lists one after the other are of different kinds. *)
Lemma same_list : forall d n m items, same d n (SpecBlocks.List m items) -> exists kind tight p cs, n = Node (NList kind tight) p cs /\ m = mark_at kind (S d).
Proof. intros d n m items H. inversion H; subst. eauto 8. Qed.
Lemma follows_next : forall d c b rest cs bs, same d c b -> apart (c :: cs) -> Forall2 (same d) cs bs -> onward rest bs -> blank_next rest -> follows b rest bs.
Proof.
  intros d c b rest cs bs S A F On Bn. destruct b; try exact Logic.I; try exact Bn; try (right; exact Bn); try (exfalso; inversion S; fail).
  - apply blank_stops. exact Bn.
  - split; [exact Bn|]. split; [apply (on_calm _ _ On)|]. intros m' E. destruct (on_item _ _ On m' E) as (it & bs' & ->).
    inversion F as [|c' b' cs' bs'' S' F']; subst. cbn [apart] in A. destruct A as [A _].
    destruct (same_list _ _ _ _ S) as (k1 & t1 & p1 & x1 & -> & ->). destruct (same_list _ _ _ _ S') as (k2 & t2 & p2 & x2 & -> & ->).
    destruct A as [A _]. specialize (A k1 t1 k2 t2 eq_refl eq_refl). destruct k1, k2; try reflexivity; congruence.
  - split; [exact Bn|]. split; [apply (on_calm _ _ On)|]. destruct F as [|c' b' cs bs S' F]; [reflexivity|].
    destruct b'; try reflexivity; [exfalso; inversion S'|]. exfalso. destruct A as [[_ A] _]. inversion S; subst. inversion S'; subst. apply A; reflexivity.
Qed.

(** What a node has written. *)
Record wrote (p : place) (n : node) (ls : list str) (b : block) : Prop := {
  wr_block : block_lines ls b;
  wr_same : same (inner p) n b;
  wr_chars : Forall (Forall line_char) ls;
  wr_tabs : marks p <> 0 \/ untabbed o B n -> Forall (fun l => tabbed l = false) ls;
  wr_end : last ls [] <> [];
  wr_plain : marks p <> 0 -> inner p = 0 -> quote_sort_of (hd [] ls) = Plain_quote;
  wr_full : forall kind tight q i is, n = Node (NList kind tight) q (i :: is) -> node_children i <> [] -> stops ls;
  wr_trim : ends_dark n -> trim_end (last ls []) = last ls [];
  wr_shift : forall j, moves o j n -> Forall (fun l => tabbed l = false) ls -> block_lines (map (ind j) ls) b;
  wr_spacing : spaced_block n ls
}.
Lemma wrote_nonempty : forall p n ls b, wrote p n ls b -> ls <> [].
Proof. intros p n ls b W E. apply (wr_end _ _ _ _ W). rewrite E. reflexivity. Qed.
Definition is_code (n : node) : bool := match node_value n with NCodeBlock _ _ => true | _ => false end.
Definition emits (p : place) (n : node) : Prop := forall next s s', ctx_at p (cx s) ->
  (is_heading n = true -> proper_nouns s = [] /\ common_nouns s = []) -> ser next n s = Ok s' ->
  (is_code n = true -> inner p = 0) ->
  cx s' = cx s /\ exists ls b X, wrote p n ls b /\ output s' = output s ++ X
    /\ (if is_paragraph n && negb (inner p =? 0) then lead p ++ X ++ [c_nl] else X) = text_of (map (lf p) ls).

(** ** Paragraphs *)
Lemma para_dark : forall x ls, para_lines x ls -> Forall (fun l : str => l <> []) ls.
Proof. intros x ls P. eapply Forall_impl; [|exact (pl_plain _ _ P)]. intros l ((c & r & -> & _) & _). discriminate. Qed.
Lemma para_run : forall p q cs next s s', ok_place p -> ctx_at p (cx s) -> good p (Node NParagraph q cs) -> ser next (Node NParagraph q cs) s = Ok s' ->
  cx s' = cx s /\ exists x ls X, para_text (inner p) (Node NParagraph q cs) x /\ para_lines x ls /\ (marks p <> 0 -> inner p = 0 -> unalerted x)
    /\ output s' = output s ++ X /\ (if inner p =? 0 then X else lead p ++ X ++ [c_nl]) = text_of (map (lf p) ls).
Proof.
  intros [a k d] q cs next s s' Op C G E. inversion G as [? ? ? ? ? x evs Un Ic Df Sf Ua| | | | | | | | |]; subst. cbn [outer marks inner] in *.
  cbn [serialize] in E. cbv zeta in E. unfold paragraph in E. cbn [node_pos] in E.
  destruct (extract_source src q) as [source|] eqn:Es; [|discriminate].
  match type of E with (match ?a with Some _ => _ | None => _ end) _ = _ => destruct a as [t|] eqn:A end.
  { exfalso. destruct source as [y|]; [|discriminate]. destruct (starts_with (lit "*[") (trim y)) eqn:Q; [|discriminate].
    apply starts_with_true in Q. destruct Q as [r Q]. destruct (trim_app y) as (u & v & Ex & _). apply (Un y Es u (r ++ v)).
    rewrite Q, <- app_assoc in Ex. exact Ex. }
  apply inline_ok in E. destruct E as (x' & evs' & m & Ew & Om & Cm & E). rewrite Ic in Ew. injection Ew as <- <-.
  unfold get in E. rewrite Cm in E. destruct C as [Ct Cq Cp Cd Cdet Cf Ci Co Ce]. cbn [outer marks inner] in *.
  assert (Mp : forall y ls, para_lines y ls -> map (app (lead (At a k d))) ls = map (lf (At a k d)) ls).
  { intros y ls P. apply map_ext_in. intros l I. symmetry. apply lf_lead. pose proof (para_dark _ _ P) as Pd. rewrite Forall_forall in Pd. apply Pd, I. }
  destruct d as [|d].
  - cbn [Nat.eqb] in *. assert (L : list_type (cx s) = None) by (apply Ct; reflexivity). rewrite L in E. injection E as <-. cbn [cx set_output output].
    split; [exact Cm|].
    assert (Ep : (if in_block_quote (cx s) then blockquote_outer_indent (cx s) ++ blockquote_prefix (cx s) else []) = lead (At a k 0)).
    { rewrite Cq, Co, Cp. unfold lead. cbn [outer marks inner]. change (spaces (4 * 0)) with (@nil char). rewrite app_nil_r.
      destruct k as [|k]; [|reflexivity]. destruct Op as [[Oa _]|[Ok _]]; cbn [outer marks] in *; [rewrite Oa; reflexivity|discriminate]. }
    rewrite Ep. destruct (wrapped_lines U x (lead (At a k 0)) (line_width o) Sf) as (ls & P & W).
    exists x, ls, (wrap_text U x (lead (At a k 0)) (line_width o) ++ [c_nl]). split; [exists x, evs; auto|]. split; [exact P|]. split; [exact Ua|].
    split; [rewrite Om; reflexivity|]. rewrite W. rewrite (Mp x ls P). reflexivity.
  - cbn [Nat.eqb] in *. destruct (list_type (cx s)) as [kind|] eqn:L; [|discriminate (proj1 Ct eq_refl)].
    injection E as <-. cbn [cx set_output output]. split; [exact Cm|].
    assert (Ep : paragraph_continuation o (cx s) = lead (At a k (S d))).
    { assert (a = 0 /\ (k = 0 \/ k = 1)) as [-> _].
      { destruct Op as [[Oa Ok]|[Ok Oi]]; cbn [outer marks inner] in *; [|discriminate]. split; [exact Oa|]. destruct Ok as [|[|]]; [auto|discriminate|auto]. }
      unfold paragraph_continuation. rewrite (Cdet eq_refl), Cd, (Ce eq_refl), Cq, Co, Cp. cbn [andb]. rewrite concat_spaces.
      rewrite Nat.sub_0_r. unfold lead. cbn [outer marks inner]. destruct k; reflexivity. }
    rewrite Ep. destruct (wrapped_first_lines U (trim x) [] (lead (At a k (S d))) (line_width o) Sf) as (l & ls & P & W).
    exists (trim x), (l :: ls), (wrap_text_first_line U (trim x) [] (lead (At a k (S d))) (line_width o)).
    split; [exists x, evs; auto|]. split; [exact P|]. split; [discriminate|]. split; [rewrite Om; reflexivity|].
    rewrite W. cbn [app]. rewrite text_of_cons. pose proof (Forall_inv (para_dark _ _ P)) as Nl. rewrite (text_of_lead _ _ _ Nl).
    f_equal. f_equal. f_equal. f_equal. pose proof (Mp _ _ P) as M. cbn [map] in M. injection M as _ M. rewrite M. reflexivity.
Qed.
Lemma para_wrote : forall p q cs x ls, para_text (inner p) (Node NParagraph q cs) x -> para_lines x ls -> (marks p <> 0 -> inner p = 0 -> unalerted x) ->
  wrote p (Node NParagraph q cs) ls (Para (map words (segments x))).
Proof.
  intros p q cs x ls T P Ua. constructor.
  - apply para_block. exact P.
  - apply sm_para. exact T.
  - apply char_line. exact (pl_chars _ _ P).
  - intros _. eapply Forall_impl; [|exact (pl_plain _ _ P)]. intros l (D & _). apply (dark_margin l D).
  - pose proof (para_dark _ _ P) as D. destruct (exists_last (pl_nonempty _ _ P)) as (a & z & ->). rewrite last_last. apply Forall_app in D. destruct D as [_ D]. exact (Forall_inv D).
  - intros K I. destruct ls as [|l ls]; [destruct (pl_nonempty _ _ P eq_refl)|]. cbn [hd]. eapply sort_of_first; [exact P|]. auto.
  - intros; discriminate.
  - intros _. exact (pl_end _ _ P).
  - intros j J _. apply para_shift; [exact J|exact P].
  - apply spc_plain; [exact Logic.I|]. eapply Forall_impl; [|exact (pl_plain _ _ P)]. intros l (D & _). apply (dark_margin l D).
Qed.
Lemma para_emits : forall p q cs, ok_place p -> good p (Node NParagraph q cs) -> emits p (Node NParagraph q cs).
Proof.
  intros p q cs Op G next s s' C _ E _. destruct (para_run _ _ _ _ _ _ Op C G E) as (Cx & x & ls & X & T & P & Ua & O & Eq).
  split; [exact Cx|]. exists ls, (Para (map words (segments x))), X. split; [apply para_wrote; assumption|]. split; [exact O|].
  cbn [is_paragraph node_value andb]. destruct (inner p =? 0); exact Eq.
Qed.

(** ** Leaves *)
Lemma code_wrote : forall p info literal q cs k content calls failed, settles o B k info literal content calls failed ->
  good p (Node (NCodeBlock info literal) q cs) ->
  wrote p (Node (NCodeBlock info literal) q cs) (code_lines o (block_info o info) content) (Code (block_info o info) (cm_lines content)).
Proof.
  intros p info literal q cs k content calls failed S G. inversion G as [| |k' d ? ? ? ? Kd (M & I & Cs)| | | | | | |]; subst. destruct (Cs _ _ _ _ S) as [N T].
  constructor.
  - apply code_block_lines; assumption.
  - eapply sm_code. exact S.
  - apply code_lines_chars; assumption.
  - cbn [marks inner]. intros [H|H]; (apply code_lines_tabs; [exact N|]); [|exact (H _ _ _ _ S)]. apply T. destruct k'; [congruence|reflexivity].
  - apply code_lines_last.
  - intros _ _. unfold code_lines. cbn [hd]. destruct (fence_line o content (info_suffix o (block_info o info))) as (_ & _ & L).
    unfold quote_sort_of. replace (starts_with (lit "[!") _) with false; [reflexivity|]. symmetry.
    destruct (starts_with (lit "[!") _) eqn:K; [|reflexivity]. apply starts_with_true in K. destruct K as [r K]. rewrite K in L. discriminate.
  - intros; discriminate.
  - intros _. unfold code_lines. rewrite app_comm_cons, last_last. apply trim_fence.
  - intros j J _. apply code_shift; assumption.
  - apply spc_other. exact Logic.I.
Qed.
Lemma code_emits : forall p info literal q cs, good p (Node (NCodeBlock info literal) q cs) -> emits p (Node (NCodeBlock info literal) q cs).
Proof.
  intros p info literal q cs G next s s' C _ E Ic. specialize (Ic eq_refl). cbn [serialize] in E. cbv zeta in E. unfold get in E.
  assert (Cx : cx s' = cx s).
  { unfold code_act, get in E. destruct (code_block _ _ _ _ _ _) as [text eff]. apply seqa_ok in E. destruct E as (m & E1 & E).
    apply seqa_ok in E. destruct E as (m2 & E2 & E3). injection E1 as <-. injection E2 as <-. injection E3 as <-. reflexivity. }
  apply code_ok in E. destruct E as [n E]. destruct (code_written o B n info literal) as (content & calls & failed & S & W1 & W2 & _).
  split; [exact Cx|]. pose proof (code_wrote _ _ _ _ _ _ _ _ _ S G) as W. rewrite (ca_quote _ _ C) in E.
  exists (code_lines o (block_info o info) content), (Code (block_info o info) (cm_lines content)), (fst (code_block o B (negb (marks p =? 0)) n info literal)).
  split; [exact W|]. split; [exact E|]. cbn [is_paragraph node_value andb].
  inversion G as [| |k' d ? ? ? ? Kd ?| | | | | | |]; subst. cbn [marks inner] in *. subst d. destruct Kd as [->|[-> _]].
  - cbn [Nat.eqb negb]. rewrite W1. f_equal. symmetry. rewrite <- (map_id (code_lines _ _ _)) at 2. apply map_ext. intro l. unfold lf. cbn [outer marks inner quo_times]. rewrite !ind_zero. reflexivity.
  - cbn [Nat.eqb negb]. rewrite W2. f_equal. apply map_ext. intro l. unfold lf. cbn [outer marks inner quo_times]. rewrite !ind_zero. reflexivity.
Qed.
Lemma rule_emits : forall p q cs, good p (Node NThematicBreak q cs) -> emits p (Node NThematicBreak q cs).
Proof.
  intros p q cs G next s s' C _ E _. inversion G as [| | |a k ? ? Kk Rs| | | | | |]; subst. cbn [serialize] in E. cbv zeta in E. unfold thematic_break, get in E.
  injection E as <-. cbn [cx set_output output]. split; [reflexivity|]. destruct (rule_block o Rs) as (Bl & Tb & Ch & Ne & Pl).
  exists [rule_line o], Rule. eexists. split; [|split; [reflexivity|]].
  - constructor; auto; try discriminate; [constructor|intros []|intros ? []|]. apply spc_plain; [exact Logic.I|]. constructor; [|constructor].
    destruct Bl as [(l & r & El & (Bl & _) & _) _]. injection El as <- _. exact Bl.
  - cbn [is_paragraph node_value andb]. rewrite (text_of_lead _ _ _ Ne). change (text_of (map (lf (At a k 0)) [])) with (@nil char). rewrite app_nil_r.
    rewrite (ca_quote _ _ C), (ca_outer _ _ C). cbn [marks outer]. unfold lead, rule_line. cbn [outer marks inner]. change (spaces (4 * 0)) with (@nil char).
    rewrite app_nil_r, <- !app_assoc. destruct Kk as [[-> ->]| ->]; [reflexivity|]. cbn [Nat.eqb negb]. rewrite <- !app_assoc. reflexivity.
Qed.
Lemma events_still : forall evs s s', all (map do_event evs) s = Ok s' -> proper_nouns s' = proper_nouns s /\ common_nouns s' = common_nouns s /\ skip s' = skip s.
Proof.
  induction evs as [|e evs IH]; intros s s' E; [injection E as <-; auto|]. cbn [map] in E. rewrite all_cons in E. apply seqa_ok in E.
  destruct E as (m & E1 & E2). destruct (IH _ _ E2) as (-> & -> & ->). destruct e as [r|x].
  - cbn [do_event] in E1. unfold add_reference in E1. injection E1 as <-.
    destruct (f_collecting (footnotes s)); auto.
  - injection E1 as <-. auto.
Qed.
Lemma lf_top : forall ls, map (lf (At 0 0 0)) ls = ls.
Proof. intro ls. rewrite <- (map_id ls) at 2. apply map_ext. intro l. unfold lf. cbn [outer marks inner quo_times]. rewrite !ind_zero. reflexivity. Qed.
Lemma head_solid : forall level t b, block_lines (head_lines U o level t) b -> last (head_lines U o level t) [] <> [] ->
  Forall (fun l => is_blank l = false) (head_lines U o level t).
Proof.
  intros level t b [(l & r & El & (Bl & _) & _) _] La. revert El La. unfold head_lines.
  assert (W : forall c, is_blank_char c = false -> repc c (u_width U t) <> [] -> is_blank (repc c (u_width U t)) = false).
  { intros c Bc N. destruct (u_width U t); [exfalso; apply N; reflexivity|]. unfold repc, is_blank. cbn [repeat forallb]. rewrite Bc. reflexivity. }
  destruct ((level =? 1) && setext_h1 o); [|destruct ((level =? 2) && setext_h2 o)]; intros El La; injection El as <- _.
  - apply Forall_cons; [exact Bl|]. apply Forall_cons; [apply W; [reflexivity|exact La]|apply Forall_nil].
  - apply Forall_cons; [exact Bl|]. apply Forall_cons; [apply W; [reflexivity|exact La]|apply Forall_nil].
  - apply Forall_cons; [exact Bl|apply Forall_nil].
Qed.
Lemma head_emits : forall p level q cs, good p (Node (NHeading level) q cs) -> emits p (Node (NHeading level) q cs).
Proof.
  intros p level q cs G next s s' C Nn E _. inversion G as [|? ? ? t evs Ct Du Hl| | | | | | | |]; subst. destruct (Nn eq_refl) as [N1 N2].
  cbn [serialize] in E. cbv zeta in E. unfold heading in E. rewrite Ct in E. cbn [inline] in E. apply seqa_ok in E. destruct E as (m & E1 & E2).
  destruct (events_still _ _ _ E1) as (M1 & M2 & _). pose proof (DocProof.events_output _ _ _ E1) as Om. pose proof (ContextProof.keeps_events _ _ _ E1) as Cm.
  unfold get in E2. rewrite M1, M2, N1, N2 in E2. injection E2 as <-. cbn [cx set_output output]. split; [exact Cm|].
  destruct (head_written U PN o level t) as (t' & Et & W). assert (Ht : head_text U PN ENT o src (Node (NHeading level) q cs) t') by (exists t, evs; auto).
  destruct (head_block U o level t' (Hl t' Ht)) as (Bl & Ch & La & Ne).
  exists (head_lines U o level t'), (Head level t'), (heading_output U PN o [] [] level t).
  split; [|split; [rewrite Om; reflexivity|]].
  - constructor; auto; try discriminate; [constructor; exact Ht|intros [K|K]; [destruct K; reflexivity|destruct K]|intro K; destruct K; reflexivity|intros []|intros ? []|].
    apply spc_plain; [exact Logic.I|]. eapply head_solid; eassumption.
  - cbn [is_paragraph node_value andb]. rewrite lf_top. exact W.
Qed.
Lemma rows_collected : forall n rows cells evs, Forall (good_row U ENT o src n) rows -> table_rows U ENT o src rows = Ok (cells, evs) ->
  Forall2 (fun row xs => Forall2 (fun c x => cell_text U ENT o src c x) (node_children row) xs) rows cells
  /\ Forall (fun r => List.length r = n) cells /\ Forall (Forall (fun x => trim_blank x = x)) cells /\ Forall (Forall (Forall line_char)) cells
  /\ definable_uses evs.
Proof.
  intros n rows. induction rows as [|row rows IH]; intros cells evs G E.
  - injection E as <- <-. repeat (split; [constructor|]). intros r [].
  - cbn [table_rows] in E. destruct (rcollect (map (inline_content U ENT o src) (node_children row))) as [[xs e1]|] eqn:E1; [|discriminate]. cbn [rbind fst snd] in E.
    destruct (table_rows U ENT o src rows) as [[ys e2]|] eqn:E2; [|discriminate]. cbn [rbind fst snd] in E. injection E as <- <-.
    destruct (IH ys e2 (Forall_inv_tail G) eq_refl) as (A1 & A2 & A3 & A4 & A5). destruct (Forall_inv G) as [Ln Gc].
    assert (K : forall cs xs e, Forall (good_cell U ENT o src) cs -> rcollect (map (inline_content U ENT o src) cs) = Ok (xs, e) ->
      Forall2 (fun c x => cell_text U ENT o src c x) cs xs /\ Forall (fun x => trim_blank x = x) xs /\ Forall (Forall line_char) xs /\ definable_uses e).
    { clear. induction cs as [|c cs IH]; intros xs e G E.
      - injection E as <- <-. repeat (split; [constructor|]). intros r [].
      - cbn [map rcollect] in E. destruct (Forall_inv G) as (x & ev & Ic & Du & Lc & Tr). rewrite Ic in E. cbn [rbind fst snd] in E.
        destruct (rcollect (map (inline_content U ENT o src) cs)) as [[ys e2]|] eqn:E2; [|discriminate]. cbn [rbind fst snd] in E. injection E as <- <-.
        destruct (IH ys e2 (Forall_inv_tail G) eq_refl) as (B1 & B2 & B3 & B4).
        split; [constructor; [exists ev; exact Ic|exact B1]|]. split; [constructor; assumption|]. split; [constructor; assumption|].
        intros r I. apply in_app_or in I. destruct I as [I|I]; [exact (Du r I)|exact (B4 r I)]. }
    destruct (K _ _ _ Gc E1) as (B1 & B2 & B3 & B4). split; [constructor; assumption|]. split.
    { constructor; [|exact A2]. rewrite <- Ln. symmetry. clear - B1. induction B1; [reflexivity|]. cbn [List.length]. f_equal. assumption. }
    split; [constructor; assumption|]. split; [constructor; assumption|]. intros r I. apply in_app_or in I. destruct I as [I|I]; [exact (B4 r I)|exact (A5 r I)].
Qed.
Lemma table_emits : forall p aligns q rows, good p (Node (NTable aligns) q rows) -> emits p (Node (NTable aligns) q rows).
Proof.
  intros p aligns q rows G next s s' C _ E _. inversion G as [| | | | | | |k ? ? ? Kk Na Nr Gr| |]; subst. cbn [serialize] in E. cbv zeta in E. unfold table in E.
  replace (is_nil rows) with false in E by (destruct rows; [congruence|reflexivity]).
  apply seqa_ok in E. destruct E as (m & E1 & E). injection E1 as <-.
  destruct (table_rows U ENT o src rows) as [[cells evs]|] eqn:Et; [|discriminate]. apply seqa_ok in E. destruct E as (m & E1 & E).
  pose proof (DocProof.events_output _ _ _ E1) as Om. pose proof (ContextProof.keeps_events _ _ _ E1) as Cm. cbn [output cx set_warnings] in Om, Cm.
  unfold get in E. injection E as <-. cbn [cx set_output output]. split; [exact Cm|].
  destruct (rows_collected _ _ _ _ Gr Et) as (Ct & Ln & Tr & Ch & _).
  assert (Nc : cells <> []) by (intros ->; inversion Ct; congruence).
  pose proof (table_lines_pipes U aligns cells) as Pp.
  exists (table_lines U aligns cells), (Table aligns (map (map bare_pipes) cells)), (table_text U (in_block_quote (cx m)) aligns cells).
  split; [|split; [rewrite Om; reflexivity|]].
  - constructor.
    + apply table_block; assumption.
    + constructor. clear - Ct. induction Ct as [|r xs rs cs H Ct IH]; [constructor|]. cbn [map]. constructor; [|exact IH].
      clear - H. induction H as [|c x l l' Hc H IH]; [constructor|]. cbn [map]. constructor; [exists x; split; [exact Hc|reflexivity]|exact IH].
    + apply table_lines_chars. exact Ch.
    + intros _. eapply Forall_impl; [|exact Pp]. intros l [t ->]. reflexivity.
    + destruct cells as [|h body]; [congruence|]. destruct (@exists_last _ (table_lines U aligns (h :: body)) ltac:(discriminate)) as (a & z & Q).
      rewrite Q in *. rewrite last_last. apply Forall_app in Pp. destruct Pp as [_ Pp]. apply Forall_inv in Pp. destruct Pp as [t ->]. discriminate.
    + intros _ _. destruct cells as [|h body]; [congruence|]. apply Forall_inv in Pp. cbn [hd]. reflexivity.
    + intros; discriminate.
    + intros [].
    + intros ? [].
    + apply spc_plain; [exact Logic.I|]. eapply Forall_impl; [|exact Pp]. intros l [t ->]. reflexivity.
  - cbn [is_paragraph node_value andb]. rewrite table_written. f_equal. apply map_ext_in. intros l I. rewrite Forall_forall in Pp. destruct (Pp l I) as [t ->].
    rewrite Cm, (ca_quote _ _ C). cbn [marks]. rewrite lf_lead by discriminate. unfold lead. cbn [outer marks inner]. change (spaces (4 * 0)) with (@nil char). cbn [app].
    rewrite app_nil_r. f_equal. destruct k as [|[|k]]; [reflexivity|reflexivity|lia].
Qed.
Lemma html_emits : forall p literal q cs, good p (Node (NHtmlBlock literal) q cs) -> emits p (Node (NHtmlBlock literal) q cs).
Proof.
  intros p literal q cs G next s s' C _ E _. inversion G as [| | | | | | | |? ? ? H D|]; subst. cbn [serialize] in E. cbv zeta in E. injection E as <-. cbn [cx set_output output].
  split; [reflexivity|]. exists (cm_lines literal), (Html (cm_lines literal)), literal. split; [|split; [reflexivity|]].
  - constructor; try discriminate.
    + apply html_block. exact H.
    + constructor.
    + apply cm_lines_chars.
    + intros [K|K]; [destruct K; reflexivity|destruct K].
    + apply html_lines_last. exact H.
    + intro K. destruct K. reflexivity.
    + intros [].
    + intros ? [].
    + apply spc_other. exact Logic.I.
  - cbn [is_paragraph node_value andb]. rewrite lf_top. unfold text_of. apply H.
Qed.

(** ** Block quotes *)
Lemma ctx_quote : forall k d c, ctx_at (At 0 k d) c -> ctx_at (At d (S k) 0) (enter_blockquote c).
Proof.
  intros k d c []. cbn [outer marks inner] in *. constructor; cbn [outer marks inner enter_blockquote list_type in_block_quote blockquote_prefix list_depth
    in_description_details description_details_first_list list_item_indent blockquote_outer_indent blockquote_entry_list_depth]; auto.
  - tauto.
  - rewrite ca_prefix0. symmetry. apply quote_marks_succ.
  - intros ->. exact ca_depth0.
Qed.
Lemma exit_enter : forall c, exit_blockquote c (enter_blockquote c) = c.
Proof. intros []. reflexivity. Qed.
Definition kids_of (cs : list node) (k : kids) : Prop := Forall2 (fun c na => exists next, na = (c, ser next c)) cs k.
Lemma kids_next : forall cs, kids_of cs (combine cs (with_next ser cs)).
Proof. induction cs as [|c cs IH]; [constructor|]. cbn [with_next combine]. constructor; [eexists; reflexivity|exact IH]. Qed.
Lemma good_inner : forall p c, good p c -> p <> At 0 0 0 -> is_heading c = true -> False.
Proof. intros p c G N H. inversion G; subst; try discriminate. congruence. Qed.
Lemma last_app_ne : forall (a b : list str), b <> [] -> last (a ++ b) [] = last b [].
Proof. intros a b N. destruct (exists_last N) as (x & z & ->). rewrite app_assoc, !last_last. reflexivity. Qed.
Lemma lf_bare : forall k d, lf (At d (S k) 0) [] = spaces (4 * d) ++ quote_marks k ++ lit ">".
Proof.
  intros k d. unfold lf. cbn [outer marks inner]. change (ind (4 * 0) []) with (@nil char). rewrite quo_times_succ. change (quo []) with (lit ">").
  destruct (quo_times_marks k (lit ">")) as [-> N]; [discriminate|]. apply ind_cons. destruct (quote_marks k); discriminate.
Qed.
Lemma quote_run : forall k d cs ks, kids_of cs ks -> forall first s s',
  Forall (fun c => good (At d (S k) 0) c /\ emits (At d (S k) 0) c) cs -> apart cs -> ctx_at (At d (S k) 0) (cx s) ->
  blockquote_children (spaces (4 * d)) (quote_marks k) first ks s = Ok s' ->
  cx s' = cx s /\ exists ls bs,
    output s' = output s ++ text_of (map (lf (At d (S k) 0)) ((if first || is_nil cs then [] else [[]]) ++ ls))
    /\ onward ls bs /\ Forall2 (same 0) cs bs /\ Forall (Forall line_char) ls /\ Forall (fun l => tabbed l = false) ls
    /\ (cs <> [] -> ls <> [] /\ quote_sort_of (hd [] ls) = Plain_quote)
    /\ (forall n, cs <> [] -> ends_dark (last cs n) -> trim_end (last ls []) = last ls [])
    /\ spaced_blocks cs ls.
Proof.
  intros k d cs ks K. induction K as [|c [c' a] cs ks [nx Ea] K IH]; intros first s s' F A C E.
  - injection E as <-. split; [reflexivity|]. exists [], []. rewrite orb_true_r. cbn [app map]. unfold text_of. cbn [flat_map]. rewrite app_nil_r.
    split; [reflexivity|]. split; [apply onward_nil|]. repeat split; try constructor; try congruence.
  - injection Ea as -> ->. cbn [blockquote_children] in E. apply seqa_ok in E. destruct E as (m & E1 & E). apply seqa_ok in E. destruct E as (m2 & E2 & E3).
    assert (M : cx m = cx s /\ output m = output s ++ text_of (map (lf (At d (S k) 0)) (if first then [] else [[]]))).
    { destruct first; injection E1 as <-; [split; [reflexivity|symmetry; apply app_nil_r]|]. split; [reflexivity|]. cbn [output set_output map].
      rewrite lf_bare. unfold text_of. cbn [flat_map]. rewrite app_nil_r, <- !app_assoc. reflexivity. }
    destruct M as [Cm Om]. inversion F as [|? ? [G Em] F']; subst.
    assert (C1 : ctx_at (At d (S k) 0) (cx m)) by (rewrite Cm; exact C).
    destruct (Em _ _ _ C1 ltac:(intro H; exfalso; eapply good_inner; [exact G|congruence|exact H]) E2 ltac:(auto)) as (Cx & ls & b & X & W & Ox & Ex).
    cbn [inner Nat.eqb negb] in Ex. rewrite andb_false_r in Ex. subst X.
    destruct A as [A0 A]. destruct (IH false m2 s' F' A ltac:(rewrite Cx; exact C1) E3) as (Cx' & ls' & bs & O' & On & S' & Ch & Tb & Ne & Te & Sp).
    split; [rewrite Cx', Cx; exact Cm|].
    set (sep := if is_nil cs then [] else [[]] : list str) in *.
    exists (ls ++ sep ++ ls'), (b :: bs).
    assert (Bn : blank_next (sep ++ ls')).
    { unfold sep. destruct cs as [|c1 cs]; [|reflexivity]. inversion S'; subst. destruct On as [Rd _ _]. cbn [is_nil app].
      inversion K; subst. cbn [blockquote_children] in E3. injection E3 as <-. clear - O'. cbn [is_nil orb app] in O'.
      destruct ls' as [|l ls']; [exact Logic.I|]. exfalso. assert (Z : text_of (map (lf (At d (S k) 0)) (l :: ls')) = []).
      { apply (app_inv_head (output m2)). rewrite app_nil_r. symmetry. exact O'. }
      cbn [map] in Z. rewrite text_of_cons in Z. destruct (lf (At d (S k) 0) l); discriminate. }
    assert (Os : onward (sep ++ ls') bs) by (apply onward_blanks; [unfold sep; destruct cs; repeat constructor|exact On]).
    pose proof (wrote_nonempty _ _ _ _ W) as Nw.
    assert (Ec : output s' = output s ++ text_of (map (lf (At d (S k) 0)) ((if first then [] else [[]]) ++ ls ++ sep ++ ls'))).
    { rewrite O', Ox, Om. cbn [orb]. fold sep. rewrite !map_app, !text_of_app, <- !app_assoc. reflexivity. }
    split; [rewrite Ec; cbn [is_nil]; rewrite orb_false_r; reflexivity|].
    split.
    { apply onward_block; [exact (wr_block _ _ _ _ W)| |exact (on_reads _ _ Os)].
      eapply (follows_next 0 c b _ cs bs); [exact (wr_same _ _ _ _ W)|split; assumption|exact S'|exact Os|exact Bn]. }
    split; [constructor; [exact (wr_same _ _ _ _ W)|exact S']|]. split.
    { apply Forall_app. split; [exact (wr_chars _ _ _ _ W)|]. apply Forall_app. split; [unfold sep; destruct cs; repeat constructor|exact Ch]. }
    split.
    { apply Forall_app. split; [apply (wr_tabs _ _ _ _ W); left; discriminate|]. apply Forall_app. split; [unfold sep; destruct cs; repeat constructor|exact Tb]. }
    split.
    { intros _. split; [intro K0; apply app_eq_nil in K0; exact (Nw (proj1 K0))|]. destruct ls as [|l ls]; [destruct (Nw eq_refl)|].
      apply (wr_plain _ _ _ _ W); [discriminate|reflexivity]. }
    assert (Z : cs = [] -> sep ++ ls' = []) by (intros ->; inversion Sp; reflexivity).
    split; [|destruct cs as [|c1 cs]; [rewrite (Z eq_refl), app_nil_r; apply sb_one; exact (wr_spacing _ _ _ _ W)|apply sb_more; [exact (wr_spacing _ _ _ _ W)|discriminate|exact Sp]]].
    intros n _ Hd. destruct cs as [|c1 cs].
    + rewrite (Z eq_refl), app_nil_r. apply (wr_trim _ _ _ _ W). exact Hd.
    + destruct (Ne ltac:(discriminate)) as [Nl _]. rewrite app_assoc, last_app_ne by exact Nl. apply (Te n ltac:(discriminate)). exact Hd.
Qed.
Lemma quo_ends : forall ls, ls <> [] -> last (map quo ls) [] <> [].
Proof.
  intros ls N. destruct (exists_last N) as (a & z & ->). rewrite map_app. cbn [map]. rewrite last_last. destruct (quo_eq z) as [r ->]. discriminate.
Qed.
Lemma map_quo : forall ls, map quo ls = map in_quote ls.
Proof. intro ls. apply map_ext. intros [|c l]; reflexivity. Qed.
Lemma quo_wrote : forall p n ls b, block_lines (map quo ls) b -> same (inner p) n b -> Forall (Forall line_char) ls -> ls <> [] ->
  (forall kind tight q cs, n <> Node (NList kind tight) q cs) ->
  (ends_dark n -> trim_end (last ls []) = last ls []) -> (forall j, moves o j n -> block_lines (map (ind j) (map quo ls)) b) ->
  spaced_block n (map quo ls) -> wrote p n (map quo ls) b.
Proof.
  intros p n ls b Bl S Ch N L Te Sh Sp. constructor; auto.
  - apply Forall_map. eapply Forall_impl; [|exact Ch]. apply quo_chars.
  - intros _. apply Forall_map. apply Forall_forall. intros l _. apply quo_tabbed.
  - apply quo_ends. exact N.
  - intros _ _. destruct ls as [|l ls]; [congruence|]. cbn [map hd]. destruct (quo_eq l) as [r ->]. reflexivity.
  - intros kind tight q i is E. destruct (L _ _ _ _ E).
  - intro H. destruct (exists_last N) as (a & z & Z). rewrite Z in *. rewrite map_app. cbn [map]. rewrite !last_last in *. apply trim_quo. exact (Te H).
Qed.
(** Where quotes may begin. *)
Record quotable (k d : nat) (c : ctx) : Prop := {
  qt_indent : list_item_indent c = spaces (4 * d);
  qt_prefix : blockquote_prefix c = quote_marks k;
  qt_inside : ctx_at (At d (S k) 0) (enter_blockquote c)
}.
Lemma ctx_quotable : forall k d c, ctx_at (At 0 k d) c -> quotable k d c.
Proof. intros k d c C. constructor; [apply (ca_indent _ _ C)|apply (ca_prefix _ _ C)|apply ctx_quote; exact C]. Qed.
Lemma block_quote_run : forall k d cs s s', quotable k d (cx s) -> k = 0 \/ d = 0 -> apart cs ->
  Forall (fun c => good (At d (S k) 0) c /\ emits (At d (S k) 0) c) cs ->
  block_quote (combine cs (with_next ser cs)) s = Ok s' ->
  cx s' = cx s /\ exists ls bs, output s' = output s ++ text_of (map (lf (At 0 k d)) (map quo ls))
    /\ onward ls bs /\ Forall2 (same 0) cs bs /\ Forall (Forall line_char) ls /\ Forall (fun l => tabbed l = false) ls
    /\ (cs <> [] -> ls <> [] /\ quote_sort_of (hd [] ls) = Plain_quote)
    /\ (forall n, cs <> [] -> ends_dark (last cs n) -> trim_end (last ls []) = last ls [])
    /\ spaced_blocks cs ls.
Proof.
  intros k d cs s s' C Kd A F E. unfold block_quote, get in E. apply seqa_ok in E. destruct E as (m & E1 & E). apply seqa_ok in E. destruct E as (m2 & E2 & E3).
  injection E1 as <-. injection E3 as <-. rewrite (qt_indent _ _ _ C), (qt_prefix _ _ _ C) in E2.
  pose proof (qt_inside _ _ _ C) as C'.
  destruct (quote_run k d cs _ (kids_next cs) true (set_cx (enter_blockquote (cx s)) s) _ F A C' E2) as (Cx & ls & bs & O & Rest).
  cbn [cx set_cx output] in *. split; [rewrite Cx; apply exit_enter|]. exists ls, bs. split; [|exact Rest]. rewrite O. cbn [orb app].
  rewrite map_lf_quote by exact Kd. reflexivity.
Qed.
Lemma quote_wrote : forall k d q cs s s', k = 0 \/ d = 0 -> cs <> [] -> apart cs -> Forall (fun c => good (At d (S k) 0) c /\ emits (At d (S k) 0) c) cs ->
  quotable k d (cx s) -> block_quote (combine cs (with_next ser cs)) s = Ok s' ->
  cx s' = cx s /\ exists ls b, wrote (At 0 k d) (Node NBlockQuote q cs) ls b /\ output s' = output s ++ text_of (map (lf (At 0 k d)) ls)
    /\ forall e, same e (Node NBlockQuote q cs) b.
Proof.
  intros k d q cs s s' Kd Nc A Fe C E.
  destruct (block_quote_run k d cs s s' C Kd A Fe E) as (Cx & ls & bs & O & On & S & Ch & Tb & Ne & Te & Sp). destruct (Ne Nc) as [Nl Q].
  split; [exact Cx|]. exists (map quo ls), (Quote bs). split; [|split; [exact O|]].
  - apply quo_wrote; auto; try discriminate; [apply quote_block; auto; exact (on_reads _ _ On)|constructor; exact S| | |].
    + intro H. destruct (ends_dark_last NBlockQuote _ _ Logic.I H) as [_ L]. apply (Te (Node NDocument q []) Nc). apply L.
    + intros j J. apply quote_shift; auto. exact (on_reads _ _ On).
    + rewrite map_quo. apply spc_quote. exact Sp.
  - intro e. constructor. exact S.
Qed.
Lemma quote_emits : forall p q cs, good p (Node NBlockQuote q cs) -> (forall P, Forall (good P) cs -> ok_place P -> Forall (emits P) cs) -> emits p (Node NBlockQuote q cs).
Proof.
  intros p q cs G H next s s' C _ E _. inversion G as [| | | |k d ? ? Kd Nc A F| | | | |]; subst. cbn [serialize] in E. cbv zeta in E.
  assert (Fe : Forall (fun c => good (At d (S k) 0) c /\ emits (At d (S k) 0) c) cs).
  { apply Forall_and; [exact F|]. apply H; [exact F|]. unfold ok_place. cbn [outer marks inner]. destruct Kd as [->| ->]; auto. }
  destruct (quote_wrote k d q cs s s' Kd Nc A Fe (ctx_quotable _ _ _ C) E) as (Cx & ls & b & W & O & _).
  split; [exact Cx|]. exists ls, b. eexists. split; [exact W|]. split; [exact O|reflexivity].
Qed.
Lemma alert_wrote : forall k d a q cs s s', k = 0 \/ d = 0 -> apart cs -> Forall (fun c => good (At d (S k) 0) c /\ emits (At d (S k) 0) c) cs ->
  quotable k d (cx s) -> alert a q (combine cs (with_next ser cs)) s = Ok s' ->
  cx s' = cx s /\ exists ls b, wrote (At 0 k d) (Node (NAlert a) q cs) ls b /\ output s' = output s ++ text_of (map (lf (At 0 k d)) ls)
    /\ forall e, same e (Node (NAlert a) q cs) b.
Proof.
  intros k d a q cs s s' Kd A Fe C E.
  unfold alert, get in E. apply seqa_ok in E. destruct E as (m & E1 & E). apply seqa_ok in E. destruct E as (m2 & E2 & E3).
  rewrite (qt_indent _ _ _ C), (qt_prefix _ _ _ C) in *.
  set (h := lit "[!" ++ alert_word a ++ lit "]").
  assert (M : exists sep : list str, sep = repeat [] (title_gap q cs) /\ Forall (fun l => is_blank l = true) sep /\ Forall (fun l => tabbed l = false) sep /\ Forall (Forall line_char) sep
    /\ cx m2 = cx s /\ output m2 = output s ++ text_of (map (lf (At 0 k d)) (map quo (h :: sep)))).
  { assert (Lq : forall l, lf (At 0 k d) (quo l) = spaces (4 * d) ++ quote_marks k ++ quo l).
    { intro l. rewrite <- lf_quote by exact Kd. destruct l as [|x l]; [rewrite lf_bare; reflexivity|]. rewrite lf_lead by discriminate.
      unfold lead. cbn [outer marks inner]. rewrite quote_marks_succ. change (spaces (4 * 0)) with (@nil char). rewrite <- !app_assoc. reflexivity. }
    assert (M1 : cx m = cx s /\ output m = output s ++ lf (At 0 k d) (quo h) ++ [c_nl]).
    { injection E1 as <-. split; [reflexivity|]. cbn [output set_output]. rewrite Lq. f_equal. rewrite <- !app_assoc. f_equal. f_equal.
      unfold h. destruct a; reflexivity. }
    destruct M1 as [Cm Om].
    assert (Case : title_gap q cs = 0 /\ m2 = m \/ title_gap q cs = 1 /\ m2 = set_output (output m ++ (spaces (4 * d) ++ quote_marks k ++ lit ">" ++ [c_nl])) m).
    { unfold title_gap. destruct cs as [|f1 r]; [injection E2 as <-; auto|]. cbn [with_next combine] in E2. destruct (_ <? _); injection E2 as <-; auto. }
    destruct Case as [[Tg ->]|[Tg ->]]; rewrite Tg.
    - exists []. split; [reflexivity|]. repeat split; try constructor; auto. rewrite Om. cbn [map]. rewrite text_of_cons. unfold text_of. cbn [flat_map]. rewrite app_nil_r. reflexivity.
    - exists [[]]. split; [reflexivity|]. repeat split; try repeat constructor; auto. cbn [output set_output]. rewrite Om. cbn [map]. rewrite !text_of_cons. unfold text_of. cbn [flat_map].
      rewrite (Lq []). change (quo []) with (lit ">"). rewrite app_nil_r, <- !app_assoc. reflexivity. }
  destruct M as (sep & Es & Bs & Ts & Cs & Cm & Om).
  destruct (block_quote_run k d cs m2 s' ltac:(rewrite Cm; exact C) Kd A Fe E3) as (Cx & ls & bs & O & On & S & Ch & Tb & Ne & Te & Sp).
  split; [rewrite Cx; exact Cm|]. exists (map quo (h :: sep ++ ls)), (Alert (alert_word a) bs). split; [|split].
  - apply quo_wrote; try discriminate.
    + apply alert_block; [destruct a; cbn; tauto|apply Forall_app; split; assumption|]. apply reads_blanks; [exact Bs|exact (on_reads _ _ On)].
    + constructor. exact S.
    + constructor; [destruct a; cbn; repeat (constructor; [split; discriminate|]); constructor|]. apply Forall_app. split; assumption.
    + intro H. destruct (ends_dark_last (NAlert a) _ _ Logic.I H) as [Nc L]. destruct (Ne Nc) as [Nl _]. rewrite app_comm_cons, last_app_ne by exact Nl.
      apply (Te (Node NDocument q []) Nc). apply L.
    + intros j J. apply alert_shift; [exact J|destruct a; cbn; tauto|apply Forall_app; split; assumption|]. apply reads_blanks; [exact Bs|exact (on_reads _ _ On)].
    + rewrite map_quo, Es. apply spc_alert. exact Sp.
  - rewrite O, Om, <- app_assoc. rewrite <- text_of_app. rewrite <- !map_app. reflexivity.
  - intro e. constructor. exact S.
Qed.
Lemma alert_emits : forall p a q cs, good p (Node (NAlert a) q cs) -> (forall P, Forall (good P) cs -> ok_place P -> Forall (emits P) cs) -> emits p (Node (NAlert a) q cs).
Proof.
  intros p a q cs G H next s s' C _ E _. inversion G as [| | | | |k d ? ? ? Kd A F| | | |]; subst. cbn [serialize] in E. cbv zeta in E.
  assert (Fe : Forall (fun c => good (At d (S k) 0) c /\ emits (At d (S k) 0) c) cs).
  { apply Forall_and; [exact F|]. apply H; [exact F|]. unfold ok_place. cbn [outer marks inner]. destruct Kd as [->| ->]; auto. }
  destruct (alert_wrote k d a q cs s s' Kd A Fe (ctx_quotable _ _ _ C) E) as (Cx & ls & b & W & O & _).
  split; [exact Cx|]. exists ls, b. eexists. split; [exact W|]. split; [exact O|reflexivity].
Qed.
End Struct.
