(** Proofs about directives, source extraction and delimiters. *)
From Coq Require Import Bool Arith NArith Lia ZifyBool ZifyNat ZifyN String List Sorted Permutation.
From Verif Require Import Base BaseFacts AstModel StateModel SpecState.
Import ListNotations.

(** ** Trimming *)
Lemma trim_end_ends : forall s r c, trim_end s = r ++ [c] -> is_ws c = false.
Proof.
  intros s r c H. destruct (trim_end_last s) as [E|(a & d & E & F)]; rewrite E in H.
  - destruct r; discriminate.
  - apply app_inj_tail in H. destruct H as [_ <-]. exact F.
Qed.
Lemma trim_core : forall s, core s (trim s).
Proof.
  intros s. destruct (trim_app s) as (a & b & E & Fa & Fb). exists a, b. repeat split; auto.
  - intros c r H. unfold trim in H. destruct (trim_start_app s) as (t & Et & _).
    destruct (trim_end_app (trim_start s)) as (u & Eu & _). rewrite H in Eu. cbn [app] in Eu.
    unfold trim_start in Eu. eapply drop_while_head. exact Eu.
  - intros r c H. eapply trim_end_ends. exact H.
Qed.
Lemma trim_of_core : forall s t, core s t -> trim s = t.
Proof.
  intros s t (a & b & -> & Fa & Fb & Hs & He). unfold trim, trim_start.
  rewrite drop_while_app_all by exact Fa.
  destruct t as [|c r].
  - cbn [app]. rewrite drop_while_all by exact Fb. reflexivity.
  - cbn [app drop_while]. rewrite (Hs c r eq_refl).
    change (c :: r ++ b) with ((c :: r) ++ b). rewrite trim_end_app_ws by exact Fb.
    destruct (exists_last (l := c :: r)) as (q & d & E); [discriminate|].
    rewrite E. apply trim_end_snoc_id. eapply He. exact E.
Qed.
Lemma core_iff : forall s t, core s t <-> trim s = t.
Proof. intros; split; [apply trim_of_core|intros <-; apply trim_core]. Qed.

Lemma split_nouns_spec : forall args, noun_list args (split_nouns args).
Proof.
  intros args. exists (split_on c_comma args), (map trim (split_on c_comma args)).
  split; [symmetry; apply join_split_on|]. split; [apply split_on_nonempty|].
  split; [|split; [|reflexivity]].
  - eapply Forall_impl; [|apply split_on_forall]. intros p F I. cbn beta in F. rewrite Forall_forall in F.
    exact (F _ I eq_refl).
  - induction (split_on c_comma args) as [|p l IH]; constructor; auto. apply trim_core.
Qed.
Lemma noun_list_unique : forall args nouns, noun_list args nouns -> nouns = split_nouns args.
Proof.
  intros args nouns (pieces & cores & -> & Hne & F & F2 & ->). unfold split_nouns.
  rewrite split_on_join; auto.
  - f_equal. induction F2 as [|p c l m H F2 IH]; [reflexivity|]. cbn [map].
    rewrite (trim_of_core _ _ H). f_equal.
    destruct l; [inversion F2; reflexivity|]. apply IH; [discriminate|]. inversion F; assumption.
  - eapply Forall_impl; [|exact F]. intros p H. cbn beta in H. apply Forall_forall. intros x I ->. exact (H I).
Qed.
Lemma noun_list_iff : forall args nouns, noun_list args nouns <-> split_nouns args = nouns.
Proof. intros; split; [intro H; symmetry; apply noun_list_unique; exact H|intros <-; apply split_nouns_spec]. Qed.

(** ** Directives *)
Lemma parse_comment : forall html,
  (exists inner, core html (lit "<!--" ++ inner ++ lit "-->")) \/ parse_directive html = None.
Proof.
  intros html. unfold parse_directive.
  destruct (starts_with (lit "<!--") (trim html)) eqn:S1; cbn [negb orb]; [|right; reflexivity].
  destruct (ends_with (lit "-->") (trim html)) eqn:S2; cbn [negb orb]; [|right; reflexivity].
  destruct (strip_prefix (lit "<!--") (trim html)) as [r|] eqn:P; [|right; reflexivity].
  destruct (strip_suffix (lit "-->") r) as [body|] eqn:Q; [|right; reflexivity].
  left. exists body. apply strip_prefix_some in P. apply strip_suffix_some in Q. subst r.
  rewrite <- P. apply trim_core.
Qed.
Definition directive_of_body (content : str) : option directive :=
  if seqb content (lit "hongdown-disable-next-line") then Some DisableNextLine
  else if seqb content (lit "hongdown-disable-file") then Some DisableFile
  else if seqb content (lit "hongdown-disable-next-section") then Some DisableNextSection
  else if seqb content (lit "hongdown-disable") then Some Disable
  else if seqb content (lit "hongdown-enable") then Some Enable
  else match strip_prefix (lit "hongdown-proper-nouns:") content with
       | Some args => Some (ProperNouns (split_nouns args))
       | None =>
           match strip_prefix (lit "hongdown-common-nouns:") content with
           | Some args => Some (CommonNouns (split_nouns args))
           | None => None
           end
       end.
Lemma parse_of_comment : forall html inner, core html (lit "<!--" ++ inner ++ lit "-->") ->
  parse_directive html = directive_of_body (trim inner).
Proof.
  intros html inner H. unfold parse_directive. rewrite (trim_of_core _ _ H).
  assert (S1 : strip_prefix (lit "<!--") (lit "<!--" ++ inner ++ lit "-->") = Some (inner ++ lit "-->"))
    by (apply strip_prefix_some; reflexivity).
  assert (S2 : ends_with (lit "-->") (lit "<!--" ++ inner ++ lit "-->") = true).
  { apply ends_with_true. exists (lit "<!--" ++ inner). rewrite app_assoc. reflexivity. }
  unfold starts_with. rewrite S1, S2. cbn [negb orb].
  assert (S3 : strip_suffix (lit "-->") (inner ++ lit "-->") = Some inner)
    by (apply strip_suffix_some; reflexivity).
  rewrite S3. reflexivity.
Qed.
Lemma directive_of_body_spec : forall body d, directive_of_body body = Some d <-> directive_form body d.
Proof.
  intros body d. split.
  - unfold directive_of_body. intro H.
    repeat match type of H with
    | (if seqb ?a ?b then _ else _) = _ =>
        let E := fresh in destruct (seqb a b) eqn:E;
        [apply seqb_true in E; subst; injection H as <-; constructor|]
    end.
    destruct (strip_prefix (lit "hongdown-proper-nouns:") body) as [args|] eqn:P.
    + injection H as <-. apply strip_prefix_some in P. subst. constructor. apply split_nouns_spec.
    + destruct (strip_prefix (lit "hongdown-common-nouns:") body) as [args|] eqn:Q; [|discriminate].
      injection H as <-. apply strip_prefix_some in Q. subst. constructor. apply split_nouns_spec.
  - intro H. destruct H; try reflexivity.
    + rewrite (noun_list_unique _ _ H). reflexivity.
    + rewrite (noun_list_unique _ _ H). reflexivity.
Qed.
Lemma parse_directive_spec : forall html d,
  parse_directive html = Some d <-> exists body, comment_body html body /\ directive_form body d.
Proof.
  intros html d. split.
  - intro H. destruct (parse_comment html) as [[inner C]|N]; [|congruence].
    exists (trim inner). split.
    + exists inner. split; [exact C|apply trim_core].
    + apply directive_of_body_spec. rewrite <- (parse_of_comment _ _ C). exact H.
  - intros (body & (inner & C & D) & F). rewrite (parse_of_comment _ _ C), (trim_of_core _ _ D).
    apply directive_of_body_spec. exact F.
Qed.

(** ** Positions *)
Lemma advance_app : forall a b l c, advance l c (a ++ b) = let '(l', c') := advance l c a in advance l' c' b.
Proof. induction a as [|x a IH]; intros b l c; [reflexivity|]. cbn [app advance]. destruct (N.eqb x 10); apply IH. Qed.
Lemma advance_no_nl : forall s l c, Forall (fun x => x <> c_nl) s -> advance l c s = (l, c + byte_len s).
Proof.
  intros s l c H. revert c. induction H as [|x s Hx H IH]; intros c; cbn [advance byte_len fold_right].
  - rewrite Nat.add_0_r. reflexivity.
  - destruct (N.eqb_spec x 10) as [->|]; [exfalso; apply Hx; reflexivity|]. rewrite IH. f_equal.
    unfold byte_len. lia.
Qed.
(** Reading a text given by its lines. *)
Lemma advance_join : forall ls x l c, Forall (fun p => Forall (fun y => y <> c_nl) p) (ls ++ [x]) ->
  advance l c (join [c_nl] (ls ++ [x])) =
    (l + List.length ls, byte_len x + match ls with [] => c | _ => 0 end).
Proof.
  induction ls as [|y ls IH]; intros x l c H; cbn [app] in H |- *.
  - cbn [join]. inversion H; subst. rewrite advance_no_nl by assumption. cbn [List.length]. f_equal; lia.
  - assert (E : join [c_nl] (y :: ls ++ [x]) = y ++ c_nl :: join [c_nl] (ls ++ [x])) by (destruct ls; reflexivity).
    rewrite E, advance_app. inversion H; subst. rewrite advance_no_nl by assumption. cbn [advance].
    replace (N.eqb c_nl 10) with true by reflexivity.
    rewrite IH by assumption. cbn [List.length]. f_equal; [lia|]. destruct ls; lia.
Qed.
Lemma split_on_app_any : forall c u v,
  exists us u' v' vs, split_on c u = us ++ [u'] /\ split_on c v = v' :: vs
    /\ split_on c (u ++ v) = us ++ (u' ++ v') :: vs.
Proof.
  intros c u v. induction u as [|x u IH].
  - destruct (split_on c v) as [|v' vs] eqn:E; [exfalso; exact (split_on_nonempty _ _ E)|].
    exists [], [], v', vs. cbn [app split_on]. auto.
  - destruct IH as (us & u' & v' & vs & E1 & E2 & E3). cbn [app split_on]. rewrite E1, E3.
    destruct (ceq x c).
    + exists ([] :: us), u', v', vs. auto.
    + destruct us as [|w us].
      * exists [], (x :: u'), v', vs. auto.
      * exists ((x :: w) :: us), u', v', vs. auto.
Qed.
Lemma cursor_split : forall s us u, split_on c_nl s = us ++ [u] ->
  cursor s = (S (List.length us), byte_len u).
Proof.
  intros s us u E. rewrite <- (join_split_on c_nl s). pose proof (split_on_forall c_nl s) as F.
  rewrite E in *. unfold cursor. rewrite advance_join by exact F.
  f_equal. destruct us; lia.
Qed.

(** ** Slices *)
Lemma floor_chars_app : forall a b, floor_chars (byte_len a) (a ++ b) = List.length a.
Proof.
  induction a as [|c a IH]; intros b.
  - destruct b as [|x b]; [reflexivity|]. cbn [app floor_chars byte_len fold_right List.length].
    pose proof (utf8_len_pos x). destruct (utf8_len x <=? 0) eqn:E; [lia|reflexivity].
  - cbn [app floor_chars List.length]. unfold byte_len. cbn [fold_right]. fold (byte_len a).
    destruct (utf8_len c <=? utf8_len c + byte_len a) eqn:E; [|lia].
    replace (utf8_len c + byte_len a - utf8_len c) with (byte_len a) by lia. rewrite IH. reflexivity.
Qed.
Lemma ceil_chars_app : forall a b, ceil_chars (byte_len a) (a ++ b) = List.length a.
Proof.
  induction a as [|c a IH]; intros b.
  - destruct b; reflexivity.
  - cbn [app ceil_chars List.length]. unfold byte_len. cbn [fold_right]. fold (byte_len a).
    pose proof (utf8_len_pos c). destruct (utf8_len c + byte_len a =? 0) eqn:E; [lia|].
    replace (utf8_len c + byte_len a - utf8_len c) with (byte_len a) by lia. rewrite IH. reflexivity.
Qed.
Lemma floor_chars_le : forall s n, floor_chars n s <= List.length s.
Proof. induction s as [|c s IH]; intros n; cbn [floor_chars List.length]; [lia|]. destruct (_ <=? _); [specialize (IH (n - utf8_len c))|]; lia. Qed.
Lemma ceil_chars_le : forall s n, ceil_chars n s <= List.length s.
Proof. induction s as [|c s IH]; intros n; cbn [ceil_chars List.length]; [lia|]. destruct (_ =? _); [|specialize (IH (n - utf8_len c))]; lia. Qed.
Lemma slice_exact : forall a s b, safe_str_slice (a ++ s ++ b) (byte_len a) (byte_len (a ++ s)) = Ok s.
Proof.
  intros a s b. unfold safe_str_slice. rewrite floor_chars_app, app_assoc, ceil_chars_app, app_length.
  destruct (_ <? _) eqn:E; [lia|]. rewrite <- app_assoc, skipn_app, skipn_all, Nat.sub_diag. cbn [app skipn].
  replace (List.length a + List.length s - List.length a) with (List.length s) by lia.
  rewrite firstn_app, firstn_all, Nat.sub_diag, firstn_O, app_nil_r. reflexivity.
Qed.
(** A slice panics exactly when a whole character lies between the end and the
    start. *)
Lemma slice_panic : forall s i j, safe_str_slice s i j = Panic <->
  exists u w t, s = u ++ w ++ t /\ w <> [] /\ j <= byte_len u /\ byte_len (u ++ w) <= i.
Proof.
  intros s i j. unfold safe_str_slice. split.
  - intro H. destruct (ceil_chars j s <? floor_chars i s) eqn:E; [|discriminate]. clear H.
    apply Nat.ltb_lt in E. revert i j E. induction s as [|c s IH]; intros i j E; [cbn in E; lia|].
    cbn [floor_chars ceil_chars] in E. destruct (utf8_len c <=? i) eqn:L; [|lia].
    destruct (j =? 0) eqn:J.
    + exists [], [c], s. apply Nat.eqb_eq in J. split; [reflexivity|]. split; [discriminate|].
      unfold byte_len. cbn [fold_right app]. lia.
    + destruct (IH (i - utf8_len c) (j - utf8_len c)) as (u & w & t & -> & Hw & H1 & H2); [lia|].
      exists (c :: u), w, t. split; [reflexivity|]. split; [exact Hw|].
      unfold byte_len in *. cbn [fold_right app]. lia.
  - intros (u & w & t & -> & Hw & H1 & H2).
    destruct (_ <? _) eqn:E; [reflexivity|exfalso]. apply Nat.ltb_ge in E.
    assert (C : ceil_chars j (u ++ w ++ t) <= List.length u).
    { clear - H1. revert j H1. induction u as [|c u IH]; intros j H1.
      - unfold byte_len in H1. cbn [fold_right] in H1. replace j with 0 by lia. destruct (w ++ t); reflexivity.
      - cbn [app ceil_chars List.length]. unfold byte_len in H1. cbn [fold_right] in H1. fold (byte_len u) in H1.
        destruct (j =? 0); [lia|]. specialize (IH (j - utf8_len c)). lia. }
    assert (F : List.length (u ++ w) <= floor_chars i (u ++ w ++ t)).
    { clear - H2. rewrite app_assoc. generalize dependent (u ++ w). intros v. revert i.
      induction v as [|c v IH]; intros i H2; [cbn; lia|].
      cbn [app floor_chars List.length]. unfold byte_len in H2. cbn [fold_right] in H2. fold (byte_len v) in H2.
      destruct (utf8_len c <=? i) eqn:L; [|lia]. specialize (IH (i - utf8_len c)). lia. }
    rewrite app_length in F. destruct w; [congruence|]. cbn [List.length] in F. lia.
Qed.

(** ** Source extraction *)
Lemma nth_middle_eq : forall A (l r : list A) x d, nth (List.length l) (l ++ x :: r) d = x.
Proof. intros. rewrite app_nth2, Nat.sub_diag by lia. reflexivity. Qed.

Lemma extract_loop_tail : forall src p si ei mid before y b after,
  src = before ++ mid ++ (y ++ b) :: after ->
  si < List.length before -> ei = List.length before + List.length mid ->
  end_col p = byte_len y ->
  extract_loop src p si ei (seq (List.length before) (S (List.length mid)))
    = Ok (flat_map (fun l => c_nl :: l) (mid ++ [y])).
Proof.
  intros src p si ei mid. induction mid as [|m mid IH]; intros before y b after E Hs He Hc.
  - cbn [List.length seq extract_loop app flat_map]. unfold extract_line.
    cbn [List.length] in He. rewrite Nat.add_0_r in He. subst ei.
    destruct (si =? List.length before) eqn:E1; [lia|].
    destruct (List.length before =? si) eqn:E2; [lia|]. rewrite Nat.eqb_refl.
    rewrite E. cbn [app]. rewrite nth_middle_eq, Hc, byte_len_app.
    replace (Nat.min (byte_len y) (byte_len y + byte_len b)) with (byte_len y) by lia.
    pose proof (slice_exact [] y b) as S. cbn [app] in S. unfold byte_len in S at 1. cbn [fold_right] in S.
    rewrite S. cbn [rbind]. replace (si <? List.length before) with true by lia.
    rewrite !app_nil_r. reflexivity.
  - cbn [List.length]. rewrite <- cons_seq. cbn [extract_loop]. unfold extract_line at 1.
    destruct (si =? ei) eqn:E1; [cbn [List.length] in He; lia|].
    destruct (List.length before =? si) eqn:E2; [lia|].
    destruct (List.length before =? ei) eqn:E3; [cbn [List.length] in He; lia|]. cbn [rbind].
    assert (E' : src = (before ++ [m]) ++ mid ++ (y ++ b) :: after) by (rewrite E, <- app_assoc; reflexivity).
    specialize (IH (before ++ [m]) y b after E'). rewrite app_length in IH. cbn [List.length] in IH, He.
    assert (IH' := IH ltac:(lia) ltac:(lia) Hc). clear IH.
    replace (List.length before + 1) with (S (List.length before)) in IH' by lia.
    rewrite IH'. cbn [rbind].
    rewrite E. cbn [app]. rewrite nth_middle_eq. replace (si <? List.length before) with true by lia. reflexivity.
Qed.
Lemma join_flat : forall x l, join [c_nl] (x :: l) = x ++ flat_map (fun l => c_nl :: l) l.
Proof.
  intros x l. revert x. induction l as [|y l IH]; intros x; [cbn; rewrite app_nil_r; reflexivity|].
  rewrite join_cons, IH. reflexivity.
Qed.
(** The slice lemma on lines. *)
Lemma extract_spans : forall src p s,
  src <> [] -> Forall (fun l => Forall (fun c => c <> c_nl) l) src ->
  spans (join [c_nl] src) p s -> extract_source src p = Ok (Some s).
Proof.
  intros src p s Hne F (A & Z & E & Hc & C1 & C2).
  assert (Hsplit : split_on c_nl (A ++ s ++ Z) = src) by (rewrite <- E; apply split_on_join; assumption).
  destruct (split_on_app_any c_nl A (s ++ Z)) as (As & a & sz & szs & EA & ESZ & EASZ).
  destruct (split_on_app_any c_nl s Z) as (ss & s' & z & zs & Es & EZ & EsZ).
  destruct (split_on_app_any c_nl A s) as (As2 & a2 & s2 & ss2 & EA2 & Es2 & EAs).
  rewrite EA in EA2. apply app_inj_tail in EA2. destruct EA2 as [<- <-].
  apply cursor_split in EA as CA. rewrite CA in C1. injection C1 as L1 K1.
  assert (JS : s = join [c_nl] (ss ++ [s'])) by (rewrite <- Es; symmetry; apply join_split_on).
  rewrite Es in Es2.
  destruct ss as [|x ss].
  - (* one line *)
    cbn [app] in Es2, EsZ, JS. injection Es2 as <- <-. cbn [join] in JS. subst s'.
    rewrite ESZ in EsZ. injection EsZ as -> ->.
    apply cursor_split in EAs. rewrite EAs in C2. injection C2 as L2 K2.
    rewrite Hsplit in EASZ. clear Hsplit E. subst src.
    unfold extract_source. destruct (is_nil _) eqn:N; [destruct As; discriminate|].
    rewrite <- L1, <- L2. cbn [Nat.eqb orb]. rewrite !Nat.sub_succ, !Nat.sub_0_r.
    rewrite app_length. cbn [List.length]. destruct (_ <=? _) eqn:LE; [lia|]. clear LE.
    replace (S (List.length As) - List.length As) with 1 by lia. cbn [seq extract_loop]. unfold extract_line.
    rewrite Nat.eqb_refl, nth_middle_eq, <- K1, <- K2, slice_exact. cbn [rbind].
    replace (List.length As <? List.length As) with false by lia. rewrite app_nil_r. reflexivity.
  - (* several lines *)
    cbn [app] in Es2, EsZ, JS. injection Es2 as <- <-. rewrite ESZ in EsZ. injection EsZ as -> ->.
    rewrite app_comm_cons, app_assoc in EAs. apply cursor_split in EAs. rewrite EAs in C2. injection C2 as L2 K2.
    rewrite app_length in L2. cbn [List.length] in L2.
    rewrite Hsplit in EASZ. clear Hsplit E. subst src.
    unfold extract_source. destruct (is_nil _) eqn:N; [destruct As; discriminate|].
    rewrite <- L1, <- L2. cbn [Nat.eqb orb]. rewrite !Nat.sub_succ, !Nat.sub_0_r.
    rewrite app_length. cbn [List.length]. rewrite app_length. cbn [List.length].
    destruct (_ <=? _) eqn:LE; [lia|]. clear LE.
    replace (S (List.length As + S (List.length ss)) - List.length As) with (S (S (List.length ss))) by lia.
    rewrite <- cons_seq. cbn [extract_loop]. unfold extract_line at 1.
    destruct (List.length As =? List.length As + S (List.length ss)) eqn:E1; [lia|].
    rewrite Nat.eqb_refl, nth_middle_eq, <- K1.
    pose proof (slice_exact a x []) as S. rewrite app_nil_r in S. rewrite S. cbn [rbind].
    pose proof (extract_loop_tail (As ++ (a ++ x) :: ss ++ (s' ++ z) :: zs) p (List.length As)
                  (List.length As + Datatypes.S (List.length ss)) ss (As ++ [a ++ x]) s' z zs) as T.
    rewrite app_length in T. cbn [List.length] in T.
    replace (List.length As + 1) with (Datatypes.S (List.length As)) in T by lia.
    match goal with |- context[extract_loop ?q1 ?q2 ?q3 ?q4 ?q5] =>
      assert (T2 : extract_loop q1 q2 q3 q4 q5 = Ok (flat_map (fun l => c_nl :: l) (ss ++ [s'])));
      [apply T|rewrite T2] end;
      [rewrite <- app_assoc; reflexivity|unfold str in *; lia|unfold str in *; lia|symmetry; exact K2|].
    cbn [rbind]. replace (List.length As <? List.length As) with false by lia.
    rewrite JS, join_flat. reflexivity.
Qed.

Lemma extract_loop_ok : forall src p si ei is, si <> ei -> exists r, extract_loop src p si ei is = Ok r.
Proof.
  intros src p si ei is Hne. induction is as [|i is [r IH]]; [exists []; reflexivity|].
  cbn [extract_loop]. assert (X : exists q, extract_line src p si ei i = Ok q).
  { unfold extract_line. destruct (si =? ei) eqn:E; [apply Nat.eqb_eq in E; congruence|].
    set (line := nth i src []).
    assert (S1 : exists q, safe_str_slice line (start_col p - 1) (byte_len line) = Ok q).
    { destruct (safe_str_slice line (start_col p - 1) (byte_len line)) eqn:S; [eauto|].
      apply slice_panic in S. destruct S as (u & w & t & El & Hw & H1 & H2). exfalso.
      rewrite El, !byte_len_app in H1. destruct w as [|c w]; [congruence|].
      unfold byte_len at 2 in H1. cbn [fold_right] in H1. pose proof (utf8_len_pos c). lia. }
    assert (S2 : exists q, safe_str_slice line 0 (Nat.min (end_col p) (byte_len line)) = Ok q).
    { destruct (safe_str_slice line 0 _) eqn:S; [eauto|].
      apply slice_panic in S. destruct S as (u & w & t & El & Hw & H1 & H2). exfalso.
      rewrite byte_len_app in H2. destruct w as [|c w]; [congruence|].
      unfold byte_len at 2 in H2. cbn [fold_right] in H2. pose proof (utf8_len_pos c). lia. }
    destruct (i =? si); [exact S1|]. destruct (i =? ei); [exact S2|]. eauto. }
  destruct X as [q X]. rewrite X, IH. cbn [rbind]. eauto.
Qed.
Lemma extract_panic : forall src p, extract_source src p = Panic <->
  start_line p = end_line p /\ 1 <= start_line p /\
  exists u w t, nth_error src (start_line p - 1) = Some (u ++ w ++ t)
    /\ w <> [] /\ end_col p <= byte_len u /\ byte_len (u ++ w) <= start_col p - 1.
Proof.
  intros src p. unfold extract_source. split.
  - intro H. destruct (is_nil src) eqn:N; [discriminate|].
    destruct ((start_line p =? 0) || (end_line p =? 0)) eqn:Z; [discriminate|].
    destruct (_ <=? _) eqn:LE in H; [discriminate|].
    destruct (Nat.eq_dec (start_line p - 1) (end_line p - 1)) as [Q|Q].
    + assert (L : start_line p = end_line p) by lia. split; [exact L|]. split; [lia|].
      rewrite <- Q in H. replace (S (start_line p - 1) - (start_line p - 1)) with 1 in H by lia.
      cbn [seq extract_loop] in H. unfold extract_line in H. rewrite Nat.eqb_refl in H.
      destruct (safe_str_slice _ _ _) eqn:S in H; [discriminate|].
      apply slice_panic in S. destruct S as (u & w & t & E & Hw & H1 & H2).
      exists u, w, t. split; [|auto]. rewrite <- E. apply nth_error_nth'. lia.
    + destruct (extract_loop_ok src p _ _ (seq (start_line p - 1) (S (end_line p - 1) - (start_line p - 1))) Q) as [r R].
      rewrite R in H. discriminate.
  - intros (L & L1 & u & w & t & E & Hw & H1 & H2).
    destruct src as [|x src0]; [destruct (start_line p - 1); discriminate|]. cbn [is_nil].
    replace ((start_line p =? 0) || (end_line p =? 0)) with false by lia.
    assert (LL : start_line p - 1 < List.length (x :: src0)) by (apply nth_error_Some; congruence).
    destruct (_ <=? _) eqn:LE; [lia|]. rewrite <- L.
    replace (S (start_line p - 1) - (start_line p - 1)) with 1 by lia.
    cbn [seq extract_loop]. unfold extract_line. rewrite Nat.eqb_refl.
    pose proof (nth_error_nth _ _ ([] : str) E) as NE.
    assert (S : safe_str_slice (u ++ w ++ t) (start_col p - 1) (end_col p) = Panic) by (apply slice_panic; eauto 8).
    rewrite <- NE in S. unfold str in *. rewrite S. reflexivity.
Qed.

(** ** Emphasis *)
Section NodeInd.
Variable P : node -> Prop.
Hypothesis H : forall v p cs, Forall P cs -> P (Node v p cs).
Fixpoint node_ind' (n : node) : P n :=
  match n with
  | Node v p cs => H v p cs ((fix go (l : list node) : Forall P l :=
      match l with [] => Forall_nil P | c :: r => Forall_cons c (node_ind' c) (go r) end) cs)
  end.
End NodeInd.

Lemma text_contains_spec : forall c n, text_contains c n = true <-> has_text c n.
Proof.
  intros c. induction n as [v p cs IH] using node_ind'. cbn [text_contains].
  assert (G : (forall t, v <> NText t) -> existsb (text_contains c) cs = true <-> has_text c (Node v p cs)).
  { intro NT. rewrite existsb_exists. split.
    - intros (n & I & T). apply ht_child with n; auto. rewrite Forall_forall in IH. apply IH; auto.
    - intro HT. inversion HT as [t p' cs' I|v' p' cs' n NT' I HN]; subst; [exfalso; exact (NT t eq_refl)|].
      exists n. split; [exact I|]. rewrite Forall_forall in IH. apply IH; auto. }
  destruct v; try (apply G; discriminate).
  unfold contains_char. rewrite existsb_exists. split.
  - intros (x & I & Q). apply ceq_true in Q. subst. constructor. exact I.
  - intro HT. inversion HT as [t' p' cs' I|v' p' cs' n NT' I HN]; subst; [|exfalso; exact (NT' text eq_refl)].
    exists c. split; [exact I|apply ceq_refl].
Qed.
