(** C07 for footnotes: their text is filled into lines. *)
From Coq Require Import Bool Arith NArith Lia ZifyBool ZifyNat ZifyN String List.
From Verif Require Import Base BaseFacts WrapModel OptsModel AstModel StateModel InlineModel SerModel SpecWrap SpecFill PropsWrap SerFacts NestProof.
From Verif Require NoteProof.
Import ListNotations.

Section Lines.
Variable U : Uni.
Hypothesis laws : width_laws U.
Lemma width_nil : u_width U [] = 0.
Proof. apply laws. Qed.
Lemma width_space : forall a b, u_width U (a ++ c_sp :: b) = u_width U a + 1 + u_width U b.
Proof. apply laws. Qed.
Lemma width_spaces : forall n b, u_width U (spaces n ++ b) = n + u_width U b.
Proof.
  induction n as [|n IH]; intro b; [reflexivity|]. change (spaces (S n) ++ b) with ([] ++ c_sp :: spaces n ++ b).
  rewrite width_space, width_nil, IH. lia.
Qed.
Definition adds (p : str) : Prop := forall b, u_width U (p ++ b) = u_width U p + u_width U b.
Lemma adds_spaces : forall n, adds (spaces n) /\ u_width U (spaces n) = n.
Proof.
  intro n. assert (E : u_width U (spaces n) = n) by (rewrite <- (app_nil_r (spaces n)), width_spaces, width_nil; lia).
  split; [|exact E]. intro b. rewrite width_spaces, E. reflexivity.
Qed.
Lemma adds_space : forall a, adds (a ++ [c_sp]).
Proof. intros a b. rewrite <- app_assoc. cbn [app]. rewrite !width_space, width_nil. lia. Qed.
Lemma join_snoc : forall g w, g <> [] -> join [c_sp] (g ++ [w]) = join [c_sp] g ++ c_sp :: w.
Proof.
  induction g as [|x g IH]; intros w N; [contradiction|]. destruct g as [|y g]; [reflexivity|]. change ((x :: y :: g) ++ [w]) with (x :: (y :: g) ++ [w]).
  assert (J : forall l, l <> [] -> join [c_sp] (x :: l) = x ++ [c_sp] ++ join [c_sp] l) by (intros [|? ?] K; [contradiction|reflexivity]).
  rewrite J by discriminate. rewrite IH by discriminate. rewrite (J (y :: g)) by discriminate. rewrite <- !app_assoc. reflexivity.
Qed.
Lemma join_full : forall g, g <> [] -> Forall (fun w : str => w <> []) g -> join [c_sp] g <> [].
Proof.
  intros [|x [|y g]] N F; [contradiction|inversion F; assumption|]. inversion F as [|? ? K _]. destruct x; [contradiction|]. discriminate.
Qed.
Lemma lines_filled : forall lw p q ws first g, adds p -> adds q -> u_width U p <= lw -> u_width U q <= lw ->
  let pre := if first : bool then p else q in
  g <> [] -> Forall (fun w : str => w <> []) (g ++ ws) -> u_width U (shown pre g) <= lw \/ (exists w, g = [w]) ->
  exists x r, footnote_lines U (Some (lw - u_width U p)) (Some (lw - u_width U q)) first (join [c_sp] g) ws = map (join [c_sp]) ((g ++ x) :: r)
    /\ g ++ ws = List.concat ((g ++ x) :: r) /\ filled U lw pre q ((g ++ x) :: r).
Proof.
  intros lw p q ws. induction ws as [|w ws IH]; intros first g Ap Aq Wp Wq pre N F Fit; cbn [footnote_lines].
  - rewrite app_nil_r in F. assert (J := join_full g N F). exists [], []. rewrite app_nil_r. destruct (join [c_sp] g) eqn:Eg; [contradiction|]. cbn [is_nil map List.concat].
    rewrite Eg, !app_nil_r. split; [reflexivity|]. split; [reflexivity|]. constructor; assumption.
  - assert (Fg : Forall (fun w : str => w <> []) g) by (apply Forall_app in F; apply F). assert (J := join_full g N Fg).
    destruct (is_nil (join [c_sp] g)) eqn:Q; [destruct (join [c_sp] g); [contradiction|discriminate]|]. clear Q.
    assert (Wd : u_width U (shown pre (g ++ [w])) = u_width U pre + (u_width U (join [c_sp] g) + 1 + u_width U w)).
    { unfold shown. rewrite join_snoc by exact N. unfold pre. destruct first; [rewrite Ap|rewrite Aq]; rewrite width_space; reflexivity. }
    assert (Lm : (if first then Some (lw - u_width U p) else Some (lw - u_width U q)) = Some (lw - u_width U pre)) by (unfold pre; destruct first; reflexivity).
    rewrite Lm. cbn [fits]. assert (Wpre : u_width U pre <= lw) by (unfold pre; destruct first; assumption).
    destruct (_ <=? _) eqn:Q.
    + change (join [c_sp] g ++ [c_sp] ++ w) with (join [c_sp] g ++ c_sp :: w). rewrite <- join_snoc by exact N.
      destruct (IH first (g ++ [w]) Ap Aq Wp Wq) as (x & r & E & Ec & Fl).
      * destruct g; discriminate.
      * rewrite <- app_assoc. exact F.
      * left. fold pre. rewrite Wd. lia.
      * exists (w :: x), r. rewrite <- app_assoc in E, Ec, Fl. cbn [app] in E, Ec, Fl. rewrite <- app_assoc in Ec. split; [exact E|]. split; [exact Ec|]. exact Fl.
    + destruct (IH false [w] Ap Aq Wp Wq) as (x & r & E & Ec & Fl); [discriminate| |right; eauto|].
      { apply Forall_app in F. apply F. }
      exists [], (([w] ++ x) :: r). rewrite app_nil_r. cbn [join] in E. split; [cbn [map] in *; rewrite E; reflexivity|]. split.
      * cbn [List.concat] in *. rewrite <- Ec. reflexivity.
      * cbn [app] in *. apply fill_more; [exact N|exact Fit| |exact Fl]. rewrite Wd. lia.
Qed.
End Lines.

(** A footnote of one paragraph: its words, filled into lines of the width, the
    first one behind the marker and the others behind as many spaces.  (The
    marker must fit; what happens otherwise is shown below, and by C31.) *)
Theorem C07_footnote_lines : forall U o checks f t, width_laws U -> fn_has_blocks f = false ->
  let marker := lit "[^" ++ fn_name f ++ lit "]: " in let indent := spaces (byte_len marker) in
  u_width U marker <= line_width o -> byte_len marker <= line_width o ->
  footnote_text U o checks f = Ok t ->
  exists gs, List.concat gs = words (fn_content f) /\ t = filled_text marker indent gs /\ (gs = [] \/ filled U (line_width o) marker indent gs).
Proof.
  intros U o checks f t L Hb marker indent Wm Bm E. unfold footnote_text in E. cbv zeta in E. rewrite Hb in E. fold marker in E. fold indent in E.
  destruct (adds_spaces U L (byte_len marker)) as [Aq Wq]. fold indent in Aq, Wq.
  assert (Bi : byte_len indent = byte_len marker).
  { unfold indent, spaces, repc. generalize (byte_len marker). clear. induction n as [|n IH]; [reflexivity|]. unfold byte_len in *. cbn in *. lia. }
  unfold sub_usize in E. rewrite Bi in E. replace (u_width U marker <=? line_width o) with true in E by lia.
  replace (byte_len marker <=? line_width o) with true in E by lia. cbn [rbind] in E. rewrite <- NoteProof.words_split in E.
  assert (F : Forall (fun w : str => w <> []) (words (fn_content f))).
  { apply Forall_forall. intros w I. rewrite NoteProof.words_split in I. apply (NoteProof.word_words (fn_content f) w I). }
  destruct (words (fn_content f)) as [|w ws] eqn:Ew; cbn [is_nil] in E.
  - injection E as <-. exists []. split; [reflexivity|]. split; [reflexivity|left; reflexivity].
  - injection E as <-. cbn [footnote_lines is_nil].
    assert (Ap : adds U marker). { unfold marker. change (lit "]: ") with (lit "]:" ++ [c_sp]). rewrite !app_assoc. apply adds_space. exact L. }
    destruct (lines_filled U L (line_width o) marker indent ws true [w] Ap Aq Wm ltac:(lia) ltac:(discriminate) F (or_intror (ex_intro _ w eq_refl))) as (x & r & E & Ec & Fl).
    rewrite Wq in E. cbn [join] in E. match type of E with ?a = _ => match goal with |- context [footnote_body _ _ ?b] => change b with a end end. rewrite E. exists (([w] ++ x) :: r).
    split; [symmetry; exact Ec|]. split; [|right; exact Fl].
    cbn [map footnote_body filled_text]. unfold shown. rewrite <- app_assoc. do 2 f_equal. cbn [app]. f_equal.
    assert (N : Forall (fun g => g <> [] /\ Forall (fun w : str => w <> []) g) r).
    { assert (Fc : Forall (fun w : str => w <> []) (List.concat r)).
      { cbn [List.concat] in Ec. change (w :: ws) with ([w] ++ ws) in F. rewrite Ec in F. apply Forall_app in F. apply F. }
      clear - Fl Fc. revert Fl. generalize marker ([w] ++ x). induction r as [|g r IH]; intros m h Fl; [constructor|].
      inversion Fl; subst. cbn [List.concat] in Fc. apply Forall_app in Fc. constructor; [split; [discriminate|apply Fc]|]. eapply IH; [apply Fc|eassumption]. }
    clear - N. induction N as [|g r [Ng Fg] N IH]; [reflexivity|]. cbn [map flat_map]. rewrite IH. f_equal.
    assert (J := join_full g Ng Fg). destruct (join [c_sp] g); [contradiction|reflexivity].
Qed.
Print Assumptions C07_footnote_lines.

(** ** Example *)
Definition note07 : footnote := mkFootnote (lit "a") (lit "one two" ++ [soft] ++ lit "three overlongword four") 1 false.
Definition width07 (n : nat) : Options :=
  let o := default_options in
  mkOptions n (setext_h1 o) (setext_h2 o) (heading_sentence_case o) [] [] (unordered_marker o) (leading_spaces o) (trailing_spaces o) (indent_width o)
    (odd_level_marker o) (even_level_marker o) (ordered_list_pad o) (ordered_list_indent_width o) (fence_char o) (min_fence_length o) (space_after_fence o)
    (default_language o) (thematic_break_style o) (thematic_break_leading_spaces o) (curly_double_quotes o) (curly_single_quotes o) (curly_apostrophes o)
    (ellipsis o) (en_dash o) (em_dash o) (code_formatters o).
Example C07_footnote_example : footnote_text uni_ascii (width07 13) true note07
  = Ok (text_of [lit "[^a]: one two"; lit "      three"; lit "      overlongword"; lit "      four"]).
Proof. vm_compute. reflexivity. Qed.
(** A marker as wide as the line: without overflow checks the width that is left
    wraps around, and nothing is wrapped. *)
Theorem C07_footnote_marker_refuted : exists f t, fn_has_blocks f = false /\ footnote_text uni_ascii (width07 8) false f = Ok t
  /\ lines t = [lit "[^label]: some words that are not wrapped at all"].
Proof.
  exists (mkFootnote (lit "label") (lit "some words that are not wrapped at all") 1 false). eexists. split; [reflexivity|]. split; vm_compute; reflexivity.
Qed.
Print Assumptions C07_footnote_marker_refuted.
