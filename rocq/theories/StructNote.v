(** Footnotes of a paragraph, or of a paragraph and further blocks, as written by [write_footnote] and read by the
    reader of [SpecBlocks]. *)
From Coq Require Import Bool Arith NArith Lia ZifyBool ZifyNat ZifyN String List.
From Verif Require Import Base BaseFacts WrapModel SpecWrap WrapProof OptsModel CodeModel HeadingModel TableModel AstModel StateModel InlineModel WarnModel SerModel
  SpecCode SpecHeading SpecRefs SpecBlocks SpecEnd SpecStructure CodeProof NoteProof BlocksProof ParaProof NestProof LeafProof PropsBlocks StructShift StructProof.
Import ListNotations.

(** ** A paragraph whose lines after the first are indented *)
Lemma indented_quiet : forall k l, quiet_line l -> breaks (spaces k ++ l) = false.
Proof.
  intros k l [((c & r & E & D) & T & _) O]. unfold breaks. apply orb_false_iff.
  destruct (trim_end_last l) as [N|(a & z & Q & Z)]; [rewrite T in N; subst l; discriminate|]. rewrite T in Q.
  assert (Zs : z <> c_sp) by (intros ->; discriminate Z). split.
  - apply not_true_iff_false. intro K. apply ends_with_true in K. destruct K as [y K]. rewrite Q, app_assoc in K.
    change [c_sp; c_sp] with ([c_sp] ++ [c_sp]) in K. rewrite app_assoc in K. apply app_inj_tail in K. destruct K as [_ K]. exact (Zs K).
  - clear E Q. unfold odd_backslashes in *. rewrite rev_app_distr.
    assert (R : forall s t, (forall x, t <> c_bs :: x) -> run_len c_bs (s ++ t) = run_len c_bs s).
    { intros s t H. induction s as [|x s IH]; [apply run_len_no; exact H|]. cbn [app run_len]. rewrite IH. reflexivity. }
    rewrite R; [exact O|]. intros x Q. assert (I : In c_bs (spaces k)) by (apply in_rev; rewrite Q; left; reflexivity).
    unfold spaces, repc in I. apply repeat_spec in I. discriminate I.
Qed.
Lemma indented_pieces : forall k l more, Forall quiet_line (l :: more) ->
  line_pieces (l :: map (app (spaces k)) more) = [List.concat (map split_whitespace (l :: more))].
Proof.
  intros k l more F.
  assert (G : forall l0 more, breaks l0 = false -> Forall quiet_line more ->
    line_pieces (l0 :: map (app (spaces k)) more) = [List.concat (map split_whitespace (l0 :: more))]).
  { intros l0 m B Fm. revert l0 B. induction Fm as [|x m Q Fm IH]; intros l0 B; [cbn; rewrite app_nil_r; reflexivity|].
    specialize (IH (spaces k ++ x) (indented_quiet k x Q)).
    assert (St : forall (a b : str) r ws, breaks a = false -> line_pieces (b :: r) = [ws] -> line_pieces (a :: b :: r) = [split_whitespace a ++ ws]).
    { intros a b r ws Ba E. change (line_pieces (a :: b :: r)) with
        (if breaks a then split_whitespace (line_text a) :: line_pieces (b :: r)
         else match line_pieces (b :: r) with p :: ps => (split_whitespace a ++ p) :: ps | [] => [] end). rewrite Ba, E. reflexivity. }
    etransitivity; [apply St; [exact B|exact IH]|]. cbn [map List.concat]. rewrite split_blank_start by apply spaces_ws. reflexivity. }
  inversion F as [|? ? Q Fm]; subst. apply G; [|exact Fm]. apply (indented_quiet 0). exact Q.
Qed.
Lemma reads_indented : forall k x l more rest bs, para_lines x (l :: more) -> Forall quiet_line (l :: more) -> stops rest -> reads rest bs ->
  reads (l :: map (app (spaces k)) more ++ rest) (Para [words x] :: bs).
Proof.
  intros k x l more rest bs P Q S R. pose proof (reads_no_details rest bs R) as Nd. destruct R as [n R]. pose proof (pl_plain _ _ P) as Pl. inversion Pl as [|? ? (D & O & N) F]; subst.
  pose proof (pl_marker _ _ P) as M. pose proof (pl_define _ _ P) as Df. cbn [hd] in M, Df. apply reads_step. exists n. cbn [read_step].
  destruct (dark_margin l D) as (-> & -> & _). rewrite (plain_fence l D O), (plain_rule l O), (plain_atx l O), (plain_quote l O), M.
  cbn [is_some]. destruct (plain_strange l O) as [S1 S2]. unfold strange. rewrite S1, S2, N, (note_head_line l N). cbn [orb].
  destruct (read_definition (l ++ [c_nl])) as [d|] eqn:E.
  { apply definition_defines in E. destruct E as [E1 E2]. specialize (Df E1). apply Forall_inv in Df. congruence. }
  unfold read_paragraph. rewrite continuation_indented by assumption.
  assert (G : starts_with [c_lbr] l && existsb defines (l :: map (app (spaces k)) more) = false).
  { destruct (starts_with [c_lbr] l); [|reflexivity]. cbn [andb]. specialize (Df eq_refl). inversion Df as [|? ? D1 D2]; subst. cbn [existsb]. rewrite D1. cbn [orb].
    apply not_true_iff_false. intro K. apply existsb_exists in K. destruct K as (y & I & K). apply in_map_iff in I. destruct I as (z & <- & I).
    rewrite defines_spaces in K. rewrite Forall_forall in D2. rewrite (D2 z I) in K. discriminate. }
  rewrite G. unfold read_text. rewrite Nd, R, (indented_pieces k l more Q), (pl_words _ _ P). reflexivity.
Qed.

(** ** The lines of a footnote *)
Lemma note_span_blanks : forall k rest ab, Forall (fun l => is_blank l = true) k -> (rest = [] \/ exists l r, rest = l :: r /\ shallow l) -> (k <> [] \/ ab = true) ->
  exists k', note_span ab (k ++ rest) = Some (k', rest) /\ Forall (fun l => is_blank l = true) k'.
Proof.
  intros k rest ab F R A. revert ab A. induction F as [|l k B F IH]; intros ab A; cbn [app].
  - destruct A as [A|A]; [congruence|]. subst ab. exists []. split; [|constructor].
    destruct R as [->|(l & r & -> & S)]; [reflexivity|]. cbn [note_span]. pose proof S as (_ & _ & T). rewrite T. cbn [andb].
    rewrite (shallow_strip 4 l (le_n 4) S). reflexivity.
  - cbn [note_span]. rewrite B, andb_false_r. destruct (strip_blank 4 l B) as (x & -> & Bx).
    destruct (IH true ltac:(auto)) as (k' & -> & F'). exists (x :: k'). split; [reflexivity|]. constructor; assumption.
Qed.
Definition note_end (rest : list str) : Prop :=
  match rest with [] => True | l :: _ => is_blank l = true /\ calm rest \/ shallow l /\ begins_note l = true end.
Lemma note_span_lines : forall k more rest ab, Forall begins_dark more -> note_end rest ->
  exists b rest' bl, rest = bl ++ rest' /\ Forall (fun l => is_blank l = true) bl /\ Forall (fun l => is_blank l = true) b
    /\ note_span ab (map (app (spaces (4 + k))) more ++ rest) = Some (map (app (spaces k)) more ++ b, rest').
Proof.
  intros k more rest ab F E. revert ab. induction F as [|l more D F IH]; intro ab; cbn [map app].
  - destruct rest as [|l r]; [exists [], [], []; auto|]. cbn [note_end] in E. destruct E as [[B C]|[S I]].
    + destruct (calm_skip (l :: r) C) as (q & rest' & E & Fk & M). rewrite E. destruct q as [|x q].
      { cbn [app] in E. destruct M as [->|(l' & r' & -> & S & _)]; [discriminate|]. injection E as <- <-. congruence. }
      destruct (note_span_blanks (x :: q) rest' ab Fk M ltac:(left; discriminate)) as (k' & -> & Fk'). exists k', rest', (x :: q). auto.
    + exists [], (l :: r), []. split; [reflexivity|]. split; [constructor|]. split; [constructor|]. cbn [note_span].
      pose proof S as (_ & _ & T). rewrite T. cbn [andb]. rewrite (shallow_strip 4 l (le_n 4) S), I, orb_true_r. reflexivity.
  - cbn [note_span]. rewrite tabbed_spaces. destruct (dark_margin l D) as (_ & _ & _ & ->). cbn [andb].
    assert (St : strip_item 4 (spaces (4 + k) ++ l) = Some (spaces k ++ l)).
    { change (spaces (4 + k)) with (spaces 4 ++ spaces k). rewrite <- app_assoc. apply strip_item_prefixed. }
    rewrite St. destruct (IH (is_blank (spaces (4 + k) ++ l))) as (b & rest' & bl & E1 & E2 & E3 & ->). exists b, rest', bl. auto.
Qed.
Definition note_prefix (name : str) : str := lit "[^" ++ name ++ lit "]: ".
Definition name_ok (name : str) : Prop := name <> [] /\ Forall (fun c => c <> c_rbr /\ is_blank_char c = false) name.
Lemma note_head_prefix : forall name l, name_ok name -> begins_dark l -> note_head (note_prefix name ++ l) = Some (name, l).
Proof.
  intros name l [N F] (c & r & -> & D). unfold note_head, note_prefix. rewrite <- !app_assoc.
  change (lit "[^" ++ name ++ lit "]: " ++ c :: r) with (c_lbr :: c_caret :: name ++ lit "]: " ++ c :: r).
  change (starts_with (lit "[^") (c_lbr :: c_caret :: name ++ lit "]: " ++ c :: r)) with true. cbn iota.
  change (skipn 2 (c_lbr :: c_caret :: name ++ lit "]: " ++ c :: r)) with (name ++ c_rbr :: c_colon :: c_sp :: c :: r).
  assert (T : take_while (fun c => negb (ceq c c_rbr || is_blank_char c)) (name ++ c_rbr :: c_colon :: c_sp :: c :: r) = name).
  { clear N. induction F as [|x name [X1 X2] F IH]; [reflexivity|]. cbn [app take_while]. apply ceq_false in X1. rewrite X1, X2. cbn [orb negb]. rewrite IH. reflexivity. }
  assert (Sk : skipn (List.length name) (name ++ c_rbr :: c_colon :: c_sp :: c :: r) = c_rbr :: c_colon :: c_sp :: c :: r) by (clear; induction name as [|x name IH]; [reflexivity|exact IH]).
  cbv zeta. rewrite T. destruct name as [|x name]; [congruence|]. rewrite Sk.
  change (ceq c_rbr c_rbr && ceq c_colon c_colon) with true. cbn [drop_while]. change (is_blank_char c_sp) with true. cbn iota.
  rewrite (dark_not_blank c) by exact D. reflexivity.
Qed.
Lemma bracket_line : forall t, is_blank (c_lbr :: t) = false /\ margin (c_lbr :: t) = Some (c_lbr :: t) /\ opening_fence (c_lbr :: t) = None
  /\ is_rule (c_lbr :: t) = false /\ read_atx (c_lbr :: t) = None /\ starts_quote (c_lbr :: t) = false /\ marker_of (c_lbr :: t) = None
  /\ html_line (c_lbr :: t) = false /\ shallow (c_lbr :: t) /\ item_line (c_lbr :: t) = None.
Proof. intro t. repeat (split; [reflexivity|]). split; [|reflexivity]. split; [reflexivity|]. split; [cbn; lia|reflexivity]. Qed.
Lemma note_block : forall name x l more k, name_ok name -> para_lines x (l :: more) -> Forall quiet_line (l :: more) ->
  block_lines ((note_prefix name ++ l) :: map (app (spaces (4 + k))) more) (Foot name [Para [words x]]).
Proof.
  intros name x l more k Nm P Q. pose proof (pl_plain _ _ P) as Pl. inversion Pl as [|? ? (D & _) F]; subst.
  assert (Hd : exists t, note_prefix name ++ l = c_lbr :: t) by (eexists; reflexivity). destruct Hd as [t Et].
  pose proof (note_head_prefix name l Nm D) as Nh. rewrite Et in *.
  destruct (bracket_line t) as (B1 & B2 & B3 & B4 & B5 & B6 & B7 & B8 & B9 & B10). split.
  - eexists. eexists. split; [reflexivity|]. split; assumption.
  - intros rest bs Fo [n R].
    destruct (note_span_lines k more rest false) as (b & rest' & bl & E1 & E2 & E3 & Sp); [eapply Forall_impl; [|exact F]; intros y Y; apply Y|exact Fo|].
    assert (Rn : reads rest' bs) by (rewrite E1 in R; apply (reads_blanks bl rest' bs E2); exists n; exact R).
    assert (Ri : reads (l :: map (app (spaces k)) more ++ b) [Para [words x]]).
    { apply reads_indented; [exact P|exact Q|destruct E3 as [|y b Y E3]; [exact Logic.I|left; exact Y]|].
      rewrite <- (app_nil_r b). apply reads_blanks; [exact E3|apply reads_nil]. }
    destruct Rn as [n1 R1], Ri as [n2 R2]. apply reads_step. exists (n1 + n2).
    change (((c_lbr :: t) :: map (app (spaces (4 + k))) more) ++ rest) with ((c_lbr :: t) :: (map (app (spaces (4 + k))) more ++ rest)). cbn [read_step].
    rewrite B1, B2, B3, B4, B5, B6, B7, B8, Nh. cbn [is_some]. unfold read_note. rewrite Sp.
    rewrite (read_mono n2 (n1 + n2) ltac:(lia) _ _ R2), (read_mono n1 (n1 + n2) ltac:(lia) _ _ R1). reflexivity.
Qed.

(** ** The lines [write_footnote] writes *)
Definition word_ok (w : str) : Prop := w <> [] /\ Forall (fun c => is_ws c = false /\ c <> soft) w.
Lemma word_line : forall w, word_ok w -> text_line w.
Proof.
  intros w [N F]. split; [|split].
  - destruct w as [|c r]; [congruence|]. exists c, r. split; [reflexivity|]. apply Forall_inv in F. unfold dark_char. apply F.
  - destruct (exists_last N) as (a & z & ->). apply Forall_app in F. destruct F as [_ F]. apply Forall_inv in F. apply trim_end_snoc_id. apply F.
  - eapply Forall_impl; [|exact F]. intros c [C1 C2]. split; [|split]; [..|exact C2]; intros ->; discriminate C1.
Qed.
Lemma line_word : forall l w, text_line l -> word_ok w -> text_line (l ++ [c_sp] ++ w).
Proof.
  intros l w ((c & r & -> & D) & T & F) W. pose proof (word_line w W) as (_ & _ & Fw). destruct W as [N Wd]. split; [|split].
  - exists c, (r ++ [c_sp] ++ w). split; [reflexivity|exact D].
  - destruct (exists_last N) as (a & z & ->). apply Forall_app in Wd. destruct Wd as [_ Wd]. apply Forall_inv in Wd. rewrite !app_assoc.
    apply trim_end_snoc_id. apply Wd.
  - apply Forall_app. split; [exact F|]. apply Forall_app. split; [|exact Fw]. constructor; [repeat split; discriminate|constructor].
Qed.
Lemma split_words_ok : forall s, Forall word_ok (words s).
Proof.
  intro s. rewrite words_split. apply Forall_forall. unfold split_whitespace.
  assert (P : forall t cur, Forall (fun c => is_ws c = false /\ c <> c_nul) cur ->
            forall w, In w (split_ws_aux cur (replace_char c_nul [c_sp] t)) -> w <> [] /\ Forall (fun c => is_ws c = false /\ c <> c_nul) w).
  { unfold replace_char. induction t as [|c t IH]; intros cur F w I; cbn [flat_map split_ws_aux app] in I.
    - destruct cur as [|x cur]; cbn [is_nil] in I; [destruct I|]. destruct I as [<-|[]]. split; [|apply Forall_rev; exact F]. intro Q. apply (f_equal (@rev _)) in Q. rewrite rev_involutive in Q. discriminate Q.
    - destruct (ceq_spec c c_nul) as [->|Nc].
      + cbn [app split_ws_aux] in I. change (is_ws c_sp) with true in I. cbn iota in I. destruct cur as [|x cur]; [exact (IH [] (Forall_nil _) w I)|].
        destruct I as [<-|I]; [|exact (IH [] (Forall_nil _) w I)]. split; [|apply Forall_rev; exact F]. intro Q. apply (f_equal (@rev _)) in Q. rewrite rev_involutive in Q. discriminate Q.
      + cbn [app split_ws_aux] in I. destruct (is_ws c) eqn:W.
        * destruct cur as [|x cur]; [exact (IH [] (Forall_nil _) w I)|].
          destruct I as [<-|I]; [|exact (IH [] (Forall_nil _) w I)]. split; [|apply Forall_rev; exact F]. intro Q. apply (f_equal (@rev _)) in Q. rewrite rev_involutive in Q. discriminate Q.
        * apply (IH (c :: cur)); [constructor; auto|exact I]. }
  intros w I. apply (P s [] (Forall_nil _)). exact I.
Qed.
Lemma lines_text : forall U fw cw ws first cur, Forall word_ok ws -> (cur = [] \/ text_line cur) -> Forall text_line (footnote_lines U fw cw first cur ws).
Proof.
  intros U fw cw ws first cur F. revert first cur. induction F as [|w ws W F IH]; intros first cur C; cbn [footnote_lines].
  - destruct cur as [|x cur]; [constructor|]. cbn [is_nil]. constructor; [|constructor]. destruct C as [C|C]; [discriminate|exact C].
  - destruct cur as [|x cur]; cbn [is_nil]; [apply IH; right; apply word_line; exact W|]. destruct C as [C|C]; [discriminate|].
    destruct (SerModel.fits _ _); [apply IH; right; apply line_word; assumption|]. constructor; [exact C|]. apply IH. right. apply word_line. exact W.
Qed.
Lemma lines_words : forall ls, Forall text_line ls -> flat_map words ls = List.concat (map split_whitespace ls).
Proof.
  intros ls F. induction F as [|l ls (_ & _ & C) F IH]; [reflexivity|]. cbn [flat_map map List.concat]. rewrite IH, words_plain; [reflexivity|].
  intro I. rewrite Forall_forall in C. destruct (C _ I) as (_ & _ & K). congruence.
Qed.
Lemma safe_words : forall x, safe_text x -> ~ In c_nl x -> words x <> [].
Proof.
  intros x S N Q. assert (Sg : segments x = [x]). { apply split_on_no. apply Forall_forall. intros c I ->. contradiction. }
  pose proof (st_clean x S) as C. rewrite Sg in C. apply Forall_inv in C.
  destruct (segment_pieces uni_ascii 80 [] [] x C (st_steady x S) N (st_no_cr x S)) as (ls & (Ln & T & W) & _).
  destruct ls as [|l ls]; [congruence|]. apply Forall_inv in T. destruct T as (D & _). destruct (first_word l D) as (t & _ & _ & _ & K).
  cbn [map List.concat] in W. rewrite K, Q in W. discriminate W.
Qed.
Lemma note_written : forall U o checks f t x, footnote_text U o checks f = Ok t -> fn_has_blocks f = false -> fn_content f = trim x ->
  name_ok (fn_name f) -> line_chars (fn_name f) -> safe_text x -> ~ In c_nl x ->
  exists ls, t = text_of ls /\ Forall (Forall line_char) ls /\ last ls [] <> [] /\ block_lines ls (Foot (fn_name f) [Para (map words (segments x))])
    /\ begins_note (hd [] ls) = true.
Proof.
  intros U o checks f t x E Hb Hc Nm Nl S N. unfold footnote_text in E. rewrite Hb in E. cbv zeta in E.
  assert (Sg : segments x = [x]). { apply split_on_no. apply Forall_forall. intros c I ->. contradiction. }
  destruct (sub_usize checks (line_width o) _) as [fw|]; [|discriminate]. cbn [rbind] in E.
  destruct (sub_usize checks (line_width o) _) as [cw|]; [|discriminate]. cbn [rbind] in E. rewrite <- words_split, Hc, words_trim in E.
  pose proof (safe_words x S N) as Wn. destruct (is_nil (words x)) eqn:En; [destruct (words x); [congruence|discriminate]|].
  assert (Et : t = footnote_body (note_prefix (fn_name f)) (spaces (byte_len (note_prefix (fn_name f)))) (footnote_lines U fw cw true [] (words x))) by (injection E as <-; reflexivity).
  clear E. subst t.
  pose proof (lines_text U fw cw (words x) true [] (split_words_ok x) ltac:(left; reflexivity)) as T.
  assert (W : flat_map words (footnote_lines U fw cw true [] (words x)) = words x).
  { rewrite footnote_lines_words; [reflexivity|]. apply Forall_forall. intros w I. rewrite words_split in I. exact (word_words x w I). }
  set (L := footnote_lines U fw cw true [] (words x)) in *.
  assert (Ln : L <> []) by (intro Q; rewrite Q in W; cbn in W; congruence).
  assert (P : para_lines x L).
  { apply (safe_lines x [L] S). rewrite Sg. constructor; [|constructor]. split; [exact Ln|]. split; [exact T|]. rewrite <- lines_words by exact T. exact W. }
  assert (Q : Forall quiet_line L).
  { rewrite lines_words in W by exact T. apply Forall_forall. intros l I. rewrite Forall_forall in T. pose proof (T l I) as Tl. split; [exact Tl|].
    destruct Tl as ((c & r & El & _) & Te & _). destruct (last_word l) as (w & Iw & ->); [rewrite El; discriminate|exact Te|].
    pose proof (st_words x S) as Sw. rewrite Forall_forall in Sw. apply Sw. rewrite <- W. apply in_concat. exists (split_whitespace l). split; [apply in_map; exact I|exact Iw]. }
  clearbody L. destruct L as [|l more]; [congruence|].
  set (n := byte_len (note_prefix (fn_name f))). assert (Ge : 4 <= n). { unfold n, note_prefix. rewrite !byte_len_app. change (byte_len (lit "[^")) with 2. change (byte_len (lit "]: ")) with 3. lia. }
  replace n with (4 + (n - 4)) by lia. set (k := n - 4). exists ((note_prefix (fn_name f) ++ l) :: map (app (spaces (4 + k))) more).
  assert (Tx : footnote_body (note_prefix (fn_name f)) (spaces (4 + k)) (l :: more) = text_of ((note_prefix (fn_name f) ++ l) :: map (app (spaces (4 + k))) more)).
  { cbn [footnote_body]. rewrite text_of_cons, <- !app_assoc. do 3 f_equal. apply Forall_inv_tail in T. clear - T. induction T as [|y more Ty T IH]; [reflexivity|].
    cbn [flat_map map]. rewrite text_of_cons, IH. destruct Ty as ((c & r & -> & _) & _). cbn [is_nil]. rewrite <- !app_assoc. reflexivity. }
  split; [exact Tx|]. split; [|split; [|split]].
  - assert (C : forall y, text_line y -> Forall line_char y). { intros y (_ & _ & Y). eapply Forall_impl; [|exact Y]. intros c (C1 & C2 & _). split; assumption. }
    inversion T as [|? ? T1 T2]; subst. constructor.
    + apply Forall_app. split; [|apply C; exact T1]. unfold note_prefix. apply Forall_app. split; [repeat constructor; discriminate|]. apply Forall_app. split; [exact Nl|repeat constructor; discriminate].
    + apply Forall_map. eapply Forall_impl; [|exact T2]. intros y Y. apply Forall_app. split; [|apply C; exact Y]. apply Forall_forall. intros c I. unfold spaces, repc in I. apply repeat_spec in I. subst c. split; discriminate.
  - assert (Z : forall y, text_line y -> y <> []) by (intros y ((c & r & -> & _) & _); discriminate).
    destruct more as [|m more]; [discriminate|]. apply Forall_inv_tail in T.
    assert (G : forall v, In v (map (app (spaces (4 + k))) (m :: more)) -> v <> []).
    { intros v I. apply in_map_iff in I. destruct I as (y & <- & I). destruct y; [|discriminate]. rewrite Forall_forall in T. destruct (Z [] (T _ I) eq_refl). }
    destruct (exists_last (l := map (app (spaces (4 + k))) (m :: more)) ltac:(discriminate)) as (a & z & Ez). rewrite Ez in *.
    change (last ((note_prefix (fn_name f) ++ l) :: a ++ [z]) []) with (last (((note_prefix (fn_name f) ++ l) :: a) ++ [z]) []). rewrite last_last.
    apply G. apply in_or_app. right. left. reflexivity.
  - rewrite Sg. apply note_block; assumption.
  - cbn [hd]. unfold begins_note. assert (Hd : exists t, note_prefix (fn_name f) ++ l = c_lbr :: t) by (eexists; reflexivity). destruct Hd as [t' Et].
    pose proof (note_head_prefix (fn_name f) l Nm) as Nh. rewrite Et in *. destruct (bracket_line t') as (_ & -> & _).
    rewrite Nh; [reflexivity|]. apply Forall_inv in T. apply T.
Qed.

(** ** Footnotes of a paragraph and further blocks *)
(** The blocks' lines with a blank line between them. *)
Fixpoint glued (LL : list (list str)) : list str :=
  match LL with
  | [] => []
  | L :: r => match r with [] => L | _ => L ++ [] :: glued r end
  end.
Lemma glued_cons : forall L r, r <> [] -> glued (L :: r) = L ++ [] :: glued r.
Proof. intros L [|M r] N; [congruence|reflexivity]. Qed.
Lemma ind_rest : forall k x l more, para_lines x (l :: more) -> map (ind k) more = map (app (spaces k)) more.
Proof.
  intros k x l more P. apply map_ext_in. intros y I. apply ind_cons. pose proof (para_dark _ _ P) as D. rewrite Forall_forall in D. apply D. right. exact I.
Qed.
(** Lines whose text survives [trim_end]. *)
Definition tidy (L : list str) : Prop := last L [] <> [] /\ trim_end (last L []) = last L [].
Lemma tidy_snoc : forall L, tidy L -> exists a z, L = a ++ [z] /\ z <> [] /\ trim_end z = z.
Proof.
  intros L [N T]. destruct L as [|l L]; [destruct N; reflexivity|]. destruct (@exists_last _ (l :: L) ltac:(discriminate)) as (a & z & E). rewrite E in *. rewrite last_last in *.
  exists a, z. auto.
Qed.
Lemma snoc_tidy : forall a z, z <> [] -> trim_end z = z -> tidy (a ++ [z]).
Proof. intros a z N T. unfold tidy. rewrite last_last. auto. Qed.
(** The lines of the further blocks, which are read [j] columns in. *)
Inductive hung (j : nat) : list (list str) -> list block -> Prop :=
| hung_nil : hung j [] []
| hung_cons : forall L b LL bs, block_lines (map (ind j) L) b -> Forall (Forall line_char) L -> Forall (fun l => tabbed l = false) L -> tidy L ->
    (forall rest, blank_next rest -> onward rest bs -> follows b rest bs) -> hung j LL bs -> hung j (L :: LL) (b :: bs).
Lemma hung_onward : forall j LL bs b, hung j LL bs -> Forall (fun l => is_blank l = true) b -> LL <> [] -> onward (map (ind j) (glued LL) ++ b) bs.
Proof.
  intros j LL bs b H Bl. assert (Ob : onward b [] /\ blank_next b).
  { split; [rewrite <- (app_nil_r b); apply onward_blanks; [exact Bl|apply onward_nil]|destruct Bl; [exact Logic.I|assumption]]. }
  induction H as [|L c LL bs K Ch Tb Td Fo H IH]; intro N; [congruence|]. clear N. destruct LL as [|M LL].
  - inversion H; subst. cbn [glued]. apply onward_block; [exact K|apply Fo; apply Ob|apply (on_reads _ _ (proj1 Ob))].
  - rewrite glued_cons by discriminate. rewrite map_app, <- app_assoc. cbn [map app]. change (ind j []) with (@nil char).
    assert (O : onward ([] :: map (ind j) (glued (M :: LL)) ++ b) bs) by (apply (onward_blanks [[]]); [repeat constructor|apply IH; discriminate]).
    apply onward_block; [exact K|apply Fo; [reflexivity|exact O]|apply (on_reads _ _ O)].
Qed.
Definition said_in (x : str) : block := Para (map words (segments x)).
Lemma hung_reads : forall j x L LL bs b l tl, j <= 3 -> para_lines x L -> hung j LL bs -> Forall (fun l => is_blank l = true) b -> glued (L :: LL) = l :: tl ->
  reads (l :: map (ind j) tl ++ b) (said_in x :: bs).
Proof.
  intros j x L LL bs b l tl J P H Bl G. assert (Z : exists l more, L = l :: more) by (destruct L as [|l0 more]; [destruct (pl_nonempty _ _ P eq_refl)|eauto]). destruct Z as (l0 & more & ->).
  change (l :: map (ind j) tl ++ b) with ((spaces 0 ++ l) :: map (ind j) tl ++ b). destruct LL as [|M LL].
  - inversion H; subst. cbn [glued] in G. injection G as -> ->. rewrite (ind_rest j _ _ _ P). apply reads_shifted; [lia|exact P| |].
    + destruct Bl as [|y b Y Bl]; [exact Logic.I|left; exact Y].
    + rewrite <- (app_nil_r b). apply reads_blanks; [exact Bl|apply reads_nil].
  - rewrite glued_cons in G by discriminate. cbn [app] in G. assert (G1 : l0 = l /\ tl = more ++ [] :: glued (M :: LL)) by (split; congruence). destruct G1 as [-> ->]. clear G.
    rewrite map_app, (ind_rest j _ _ _ P), <- app_assoc. cbn [map app]. change (ind j []) with (@nil char).
    apply reads_shifted; [lia|exact P|left; reflexivity|]. apply (reads_blanks [[]]); [repeat constructor|].
    apply (on_reads _ _ (hung_onward j (M :: LL) bs b H Bl ltac:(discriminate))).
Qed.
Lemma note_span_ind : forall k more rest ab, Forall (fun l => tabbed l = false) more -> note_end rest ->
  exists b rest' bl, rest = bl ++ rest' /\ Forall (fun l => is_blank l = true) bl /\ Forall (fun l => is_blank l = true) b
    /\ note_span ab (map (ind (4 + k)) more ++ rest) = Some (map (ind k) more ++ b, rest').
Proof.
  intros k more rest ab F E. revert ab. induction F as [|l more D F IH]; intro ab.
  - exact (note_span_lines k [] rest ab (Forall_nil _) E).
  - cbn [map app]. cbn [note_span]. destruct l as [|c l].
    + change (ind (4 + k) []) with (@nil char). change (ind k []) with (@nil char). cbn [tabbed andb].
      change (strip_item 4 []) with (Some (@nil char)). change (is_blank []) with true.
      destruct (IH true) as (b & rest' & bl & E1 & E2 & E3 & ->). exists b, rest', bl. auto.
    + rewrite !ind_cons by discriminate. rewrite tabbed_spaces, D. cbn [andb].
      assert (St : strip_item 4 (spaces (4 + k) ++ c :: l) = Some (spaces k ++ c :: l)).
      { change (spaces (4 + k)) with (spaces 4 ++ spaces k). rewrite <- app_assoc. apply strip_item_prefixed. }
      rewrite St. destruct (IH (is_blank (spaces (4 + k) ++ c :: l))) as (b & rest' & bl & E1 & E2 & E3 & ->). exists b, rest', bl. auto.
Qed.
Lemma para_tidy : forall x L, para_lines x L -> tidy L.
Proof.
  intros x L P. split; [|exact (pl_end _ _ P)]. pose proof (para_dark _ _ P) as D. destruct (exists_last (pl_nonempty _ _ P)) as (a & z & ->). rewrite last_last.
  apply Forall_app in D. destruct D as [_ D]. exact (Forall_inv D).
Qed.
Lemma glued_tidy : forall LL, Forall tidy LL -> LL <> [] -> tidy (glued LL).
Proof.
  intros LL F. induction F as [|L LL T F IH]; intro N; [congruence|]. destruct LL as [|M LL]; [exact T|]. rewrite glued_cons by discriminate.
  destruct (tidy_snoc _ (IH ltac:(discriminate))) as (a & z & E & Nz & Tz). rewrite E. change (L ++ [] :: a ++ [z]) with (L ++ ([] :: a) ++ [z]). rewrite app_assoc. apply snoc_tidy; assumption.
Qed.
Lemma hung_tidy : forall j LL bs, hung j LL bs -> Forall tidy LL /\ Forall (Forall (Forall line_char)) LL /\ Forall (Forall (fun l => tabbed l = false)) LL.
Proof. intros j LL bs H. induction H as [|L c LL bs K Ch Tb Td Fo H (I1 & I2 & I3)]; repeat split; constructor; assumption. Qed.
Lemma glued_all : forall (Q : str -> Prop) LL, Q [] -> Forall (Forall Q) LL -> Forall Q (glued LL).
Proof.
  intros Q LL Q0 F. induction F as [|L LL H F IH]; [constructor|]. destruct LL as [|M LL]; [exact H|]. rewrite glued_cons by discriminate.
  apply Forall_app. split; [exact H|]. constructor; assumption.
Qed.
(** No line begins with a tab, the first is text, and the last is not blank. *)
Lemma glued_shape : forall j x L LL bs, para_lines x L -> hung j LL bs ->
  Forall (fun l => tabbed l = false) (glued (L :: LL)) /\ Forall (Forall line_char) (glued (L :: LL)) /\ (exists l tl, glued (L :: LL) = l :: tl /\ begins_dark l)
  /\ tidy (glued (L :: LL)).
Proof.
  intros j x L LL bs P H. destruct (hung_tidy _ _ _ H) as (Td & Ch & Tb).
  assert (Dk : Forall begins_dark L) by (eapply Forall_impl; [|exact (pl_plain _ _ P)]; intros y Y; apply Y). split; [|split; [|split]].
  - apply glued_all; [reflexivity|]. constructor; [|exact Tb]. eapply Forall_impl; [|exact Dk]. intros y D. apply (dark_margin y D).
  - apply glued_all; [constructor|]. constructor; [|exact Ch]. exact (char_line _ (pl_chars _ _ P)).
  - destruct L as [|l tl]; [destruct (pl_nonempty _ _ P eq_refl)|]. apply Forall_inv in Dk. destruct LL; [exists l, tl; auto|]. rewrite glued_cons by discriminate. eexists _, _. split; [reflexivity|exact Dk].
  - apply glued_tidy; [constructor; [exact (para_tidy _ _ P)|exact Td]|discriminate].
Qed.
Lemma notes_block : forall name k x L LL bs0 l tl, name_ok name -> k <= 3 -> para_lines x L -> hung k LL bs0 -> glued (L :: LL) = l :: tl ->
  block_lines ((note_prefix name ++ l) :: map (ind (4 + k)) tl) (Foot name (said_in x :: bs0)).
Proof.
  intros name k x L LL bs0 l tl Nm K P H G.
  destruct (glued_shape k x L LL bs0 P H) as (Sh & _ & (l1 & tl1 & E1 & D) & _). rewrite G in *. injection E1 as <- <-.
  assert (Hd : exists t, note_prefix name ++ l = c_lbr :: t) by (eexists; reflexivity). destruct Hd as [t Et].
  pose proof (note_head_prefix name l Nm D) as Nh. rewrite Et in *.
  destruct (bracket_line t) as (B1 & B2 & B3 & B4 & B5 & B6 & B7 & B8 & B9 & B10). split.
  - eexists. eexists. split; [reflexivity|]. split; assumption.
  - intros rest bs Fo [n R]. apply Forall_inv_tail in Sh.
    destruct (note_span_ind k tl rest false Sh Fo) as (b & rest' & bl & E1 & E2 & E3 & Sp).
    assert (Rn : reads rest' bs) by (rewrite E1 in R; apply (reads_blanks bl rest' bs E2); exists n; exact R).
    pose proof (hung_reads k x L LL bs0 b l tl K P H E3 G) as Ri.
    destruct Rn as [n1 R1], Ri as [n2 R2]. apply reads_step. exists (n1 + n2).
    change (((c_lbr :: t) :: map (ind (4 + k)) tl) ++ rest) with ((c_lbr :: t) :: (map (ind (4 + k)) tl ++ rest)). cbn [read_step].
    rewrite B1, B2, B3, B4, B5, B6, B7, B8, Nh. cbn [is_some]. unfold read_note. rewrite Sp.
    pose proof (read_mono n2 (n1 + n2) ltac:(lia) _ _ R2) as Q2.
    match goal with |- match ?z with _ => _ end = _ => replace z with (Some (said_in x :: bs0)) by (symmetry; exact Q2) end.
    rewrite (read_mono n1 (n1 + n2) ltac:(lia) _ _ R1). reflexivity.
Qed.
Lemma lines_join : forall ls a z, ls = a ++ [z] -> z <> [] -> Forall (Forall line_char) ls -> lines (join [c_nl] ls) = ls.
Proof.
  intros ls a z -> Nz F. induction a as [|y a IH].
  - cbn [app join]. apply Forall_inv in F. unfold lines.
    assert (G : forall s cur, Forall line_char s -> lines_aux cur s = if is_nil (cur ++ s) then [] else [rev cur ++ s]).
    { induction s as [|c s IH]; intros cur Fs; cbn [lines_aux]; [rewrite !app_nil_r; reflexivity|]. inversion Fs as [|? ? [C1 C2] Fs']; subst. apply ceq_false in C1. rewrite C1, IH by exact Fs'.
      cbn [app rev]. rewrite <- app_assoc. destruct cur; reflexivity. }
    rewrite G by exact F. destruct z; [congruence|reflexivity].
  - inversion F as [|? ? Fy F']; subst. cbn [app]. assert (Q : exists u v, a ++ [z] = u :: v) by (destruct a; eexists; eexists; reflexivity). destruct Q as (u & v & Q).
    rewrite Q in *. rewrite join_cons. change (y ++ [c_nl] ++ join [c_nl] (u :: v)) with (y ++ c_nl :: join [c_nl] (u :: v)).
    rewrite lines_app_nl by (eapply Forall_impl; [|exact Fy]; intros c [C1 _]; exact C1). rewrite IH by exact F'. f_equal.
    rewrite <- (rev_involutive y) at 1. rewrite strip_cr_rev_id by (apply Forall_rev; exact Fy). apply rev_involutive.
Qed.
Lemma notes_written : forall U o checks f t x L LL bs, footnote_text U o checks f = Ok t -> fn_has_blocks f = true -> fn_content f = join [c_nl] (glued (L :: LL)) ->
  name_ok (fn_name f) -> line_chars (fn_name f) -> S (byte_len (fn_name f)) <= 3 -> para_lines x L -> hung (S (byte_len (fn_name f))) LL bs ->
  exists ls, t = text_of ls /\ Forall (Forall line_char) ls /\ last ls [] <> [] /\ block_lines ls (Foot (fn_name f) (said_in x :: bs))
    /\ begins_note (hd [] ls) = true.
Proof.
  intros U o checks f t x L LL bs E Hb Hc Nm Nl Sh P H. unfold footnote_text in E. rewrite Hb in E. cbv zeta in E.
  destruct (glued_shape _ x L LL bs P H) as (Ls & Ch & (l & tl & G & D) & Td). destruct (tidy_snoc _ Td) as (a & z & Ez & Nz & _).
  rewrite Hc, (lines_join _ a z Ez Nz Ch), G in E.
  assert (Et : t = footnote_body (note_prefix (fn_name f)) (spaces (byte_len (note_prefix (fn_name f)))) (l :: tl)) by (injection E as <-; reflexivity). clear E. subst t.
  set (n := byte_len (note_prefix (fn_name f))). assert (Ge : n = 4 + S (byte_len (fn_name f))).
  { unfold n, note_prefix. rewrite !byte_len_app. change (byte_len (lit "[^")) with 2. change (byte_len (lit "]: ")) with 3. lia. }
  set (k := S (byte_len (fn_name f))) in *. rewrite Ge. exists ((note_prefix (fn_name f) ++ l) :: map (ind (4 + k)) tl). split; [|split; [|split; [|split]]].
  - cbn [footnote_body]. rewrite text_of_cons, <- !app_assoc. do 3 f_equal. clear. induction tl as [|y tl IH]; [reflexivity|].
    cbn [flat_map map]. rewrite text_of_cons, IH. unfold ind. destruct (is_nil y); rewrite <- ?app_assoc; reflexivity.
  - rewrite G in Ch. inversion Ch as [|? ? C1 C2]; subst. constructor.
    + apply Forall_app. split; [|exact C1]. unfold note_prefix. apply Forall_app. split; [repeat constructor; discriminate|]. apply Forall_app. split; [exact Nl|repeat constructor; discriminate].
    + apply Forall_map. eapply Forall_impl; [|exact C2]. intros y Y. unfold ind. destruct (is_nil y); [constructor|]. apply Forall_app. split; [|exact Y].
      apply Forall_forall. intros c I. unfold spaces, repc in I. apply repeat_spec in I. subst c. split; discriminate.
  - destruct tl as [|m tl]; [discriminate|]. assert (Q : exists b, m :: tl = b ++ [z]).
    { rewrite G in Ez. destruct a as [|u a]; [discriminate|]. injection Ez as _ Ez. eauto. }
    destruct Q as [b Q]. rewrite Q, map_app. cbn [map].
    change (last ((note_prefix (fn_name f) ++ l) :: map (ind (4 + k)) b ++ [ind (4 + k) z]) []) with (last (((note_prefix (fn_name f) ++ l) :: map (ind (4 + k)) b) ++ [ind (4 + k) z]) []).
    rewrite last_last, ind_cons by exact Nz. destruct z; [congruence|]. intro K. apply app_eq_nil in K. destruct K as [_ K]. discriminate K.
  - eapply notes_block; [exact Nm|exact Sh|exact P|exact H|exact G].
  - cbn [hd]. unfold begins_note. assert (Hd : exists t, note_prefix (fn_name f) ++ l = c_lbr :: t) by (eexists; reflexivity). destruct Hd as [t' Et].
    pose proof (note_head_prefix (fn_name f) l Nm D) as Nh. rewrite Et in *. destruct (bracket_line t') as (_ & -> & _). rewrite Nh. reflexivity.
Qed.
(** What [serialize_footnote_blocks] makes of the blocks' lines. *)
Lemma trim_join : forall L, tidy L -> trim_end (join [c_nl] L) = join [c_nl] L.
Proof.
  intros L T. destruct (tidy_snoc _ T) as (a & z & -> & Nz & Tz).
  assert (P : forall p, trim_end (p ++ z) = p ++ z).
  { intro p. destruct (trim_end_last z) as [K|(u & e & Q & K)]; [congruence|]. rewrite Tz in Q. rewrite Q, app_assoc. apply trim_end_snoc_id. exact K. }
  destruct a as [|y a]; [exact (P [])|]. rewrite (join_app2 [c_nl] (y :: a) [z]) by discriminate. cbn [join]. rewrite app_assoc. apply P.
Qed.
Lemma tidy_ne : forall L, tidy L -> L <> [].
Proof. intros L [N _] ->. apply N. reflexivity. Qed.
Lemma trim_lines : forall L, tidy L -> trim_end (text_of L) = join [c_nl] L.
Proof.
  intros L T. rewrite <- (text_of_join L (tidy_ne _ T)). rewrite trim_end_snoc_ws by reflexivity. apply trim_join. exact T.
Qed.
Lemma join_ne : forall L, tidy L -> is_nil (join [c_nl] L) = false.
Proof.
  intros L T. destruct (tidy_snoc _ T) as (a & z & -> & Nz & _). destruct a as [|y a]; [destruct z; [congruence|reflexivity]|].
  rewrite (join_app2 [c_nl] (y :: a) [z]) by discriminate. generalize (join [c_nl] (y :: a)). intros [|c s]; reflexivity.
Qed.
Lemma glued_snoc : forall LL L, LL <> [] -> glued (LL ++ [L]) = glued LL ++ [] :: L.
Proof.
  induction LL as [|M LL IH]; intros L N; [congruence|]. destruct LL as [|M2 LL]; [reflexivity|].
  change ((M :: M2 :: LL) ++ [L]) with (M :: ((M2 :: LL) ++ [L])). rewrite glued_cons by discriminate. rewrite IH by discriminate.
  rewrite (glued_cons M (M2 :: LL)) by discriminate. rewrite <- app_assoc. reflexivity.
Qed.
Lemma glued_text : forall LL L, Forall tidy LL -> LL <> [] -> tidy L ->
  join [c_nl] (glued (LL ++ [L])) = join [c_nl] (glued LL) ++ [c_nl; c_nl] ++ join [c_nl] L.
Proof.
  intros LL L F N T. rewrite glued_snoc by exact N. rewrite join_app2; [|apply tidy_ne, glued_tidy; assumption|discriminate].
  pose proof (tidy_ne _ T) as Ne. destruct L as [|l0 more]; [congruence|]. rewrite join_cons. reflexivity.
Qed.
Lemma glued_trim : forall LL, Forall tidy LL -> LL <> [] -> trim_end (join [c_nl] (glued LL)) = join [c_nl] (glued LL).
Proof. intros LL F N. apply trim_join, glued_tidy; assumption. Qed.
Lemma blocks_seen : forall o j q ics cs, Forall (moves o j) cs -> Exists (fun c => forall a, node_value c <> NAlert a) cs ->
  footnote_has_blocks (Node NParagraph q ics :: cs) = true.
Proof.
  intros o j q ics cs F Ex. unfold footnote_has_blocks. apply orb_true_iff. rewrite Exists_exists in Ex. destruct Ex as (c & I & Na). rewrite Forall_forall in F. pose proof (F c I) as M.
  destruct c as [v qc ccs]. cbn [node_value] in Na. destruct v; try contradiction M; try (left; apply existsb_exists; eexists; split; [right; exact I|reflexivity]).
  - right. cbn [filter is_paragraph node_value]. apply Nat.ltb_lt. assert (Lf : In (Node NParagraph qc ccs) (filter is_paragraph cs)) by (apply filter_In; split; [exact I|reflexivity]).
    destruct (filter is_paragraph cs); [destruct Lf|]. cbn [List.length]. lia.
  - eapply False_ind. eapply Na. reflexivity.
Qed.
