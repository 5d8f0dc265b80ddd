(** Paragraphs as written by [wrap_text] and [wrap_text_first_line], read by
    the reader of [SpecBlocks]. *)
From Coq Require Import Bool Arith NArith Lia ZifyBool ZifyNat ZifyN String List.
From Verif Require Import Base BaseFacts WrapModel SpecWrap WrapProof SpecCode SpecHeading SpecRefs SpecBlocks CodeProof BlocksProof.
Import ListNotations.

(** ** The lines written *)
Definition mark_last (l : list str) : list str := removelast l ++ [last l [] ++ [c_sp; c_sp]].
Fixpoint hard_lines (ps : list (list str)) : list str :=
  match ps with
  | [] => []
  | p :: r => match r with [] => p | _ => mark_last p ++ hard_lines r end
  end.
Definition prefixed (fp cp : str) (ls : list str) : list str :=
  match ls with [] => [] | l :: r => (fp ++ l) :: map (app cp) r end.
(** A line of text: as it is, without white space around it. *)
Definition text_line (l : str) : Prop :=
  begins_dark l /\ trim_end l = l /\ Forall (fun c => c <> c_nl /\ c <> c_cr /\ c <> soft) l.
Definition text_piece (s : str) (ls : list str) : Prop :=
  ls <> [] /\ Forall text_line ls /\ List.concat (map split_whitespace ls) = words s.

Lemma prefixed_same : forall p ls, prefixed p p ls = map (app p) ls.
Proof. intros p [|l r]; reflexivity. Qed.
Lemma trim_end_prefix : forall p b, begins_dark b -> trim_end (p ++ b) = p ++ trim_end b.
Proof.
  intros p b (c & r & -> & D). destruct (trim_end_app (c :: r)) as (t & E & W).
  destruct (trim_end_last (c :: r)) as [N|(a & x & N & X)].
  - exfalso. rewrite N in E. cbn [app] in E. subst t. inversion W; congruence.
  - rewrite E at 1. rewrite app_assoc, trim_end_app_ws by exact W. rewrite N, app_assoc. apply trim_end_snoc_id. exact X.
Qed.
Lemma words_plain : forall s, ~ In soft s -> words s = split_whitespace s.
Proof.
  intros s H. unfold words. f_equal. rewrite <- (map_id s) at 2. apply map_ext_in. intros c I.
  destruct (ceq_spec c soft) as [->|]; [contradiction|reflexivity].
Qed.
Lemma text_line_trim : forall b, starts_dark b -> Forall (fun c => c <> c_nl /\ c <> c_cr /\ c <> soft) b -> text_line (trim_end b).
Proof.
  intros b (c & r & -> & D & _) F. split; [|split; [apply trim_end_idem|]].
  - destruct (trim_end_head c r D) as (r' & ->). exists c, r'. auto.
  - destruct (trim_end_app (c :: r)) as (t & E & _). rewrite E in F. apply Forall_app in F. tauto.
Qed.
Lemma segment_pieces : forall U lw fp cp s, clean_segment s -> steady false s -> ~ In c_nl s -> ~ In c_cr s ->
  exists ls, text_piece s ls /\ wrap_text_first_line_segment U s fp cp lw = join [c_nl] (prefixed fp cp ls).
Proof.
  intros U lw fp cp s C St Nn Nc. destruct (first_segment_lines U lw fp cp s) as (L & E & Ln & _ & Sh & _ & _ & K).
  destruct (K C) as (Hw & (n & Hp) & Ht & HP & Hd). specialize (Hd St Nn).
  specialize (HP (fun c => c <> c_nl /\ c <> c_cr /\ c <> soft)). 
  assert (F : Forall (fun c => c = soft \/ c <> c_nl /\ c <> c_cr /\ c <> soft) s).
  { apply Forall_forall. intros c I. destruct (N.eq_dec c soft) as [->|Q]; [auto|]. right. repeat split; auto; intros ->; contradiction. }
  specialize (HP ltac:(repeat split; discriminate) F).
  exists (map (fun x => trim_end (wl_b x)) L). split; [split; [|split]|].
  - destruct L; [congruence|discriminate].
  - apply Forall_map. rewrite Forall_forall in *. intros x I. apply text_line_trim; auto.
  - rewrite <- Hw, !map_map. f_equal. apply map_ext_in. intros x I. rewrite Forall_forall in *.
    assert (NS : ~ In soft (wl_b x)). { intro Q. specialize (HP x I). rewrite Forall_forall in HP. destruct (HP _ Q) as (_ & _ & Z). congruence. }
    destruct (trim_end_app (wl_b x)) as (t & Et & Wt). rewrite <- words_plain.
    + rewrite Et at 2. symmetry. apply words_ws_r. exact Wt.
    + intro Q. apply NS. rewrite Et. apply in_or_app. left. exact Q.
  - rewrite E. f_equal. assert (G : Forall (fun x => wl_t x = wl_p x ++ trim_end (wl_b x)) L).
    { rewrite Forall_forall in *. intros x I. destruct (Sh x I) as (w & Bw & Ew). destruct (Hd x I) as (c & r & Eb & D & _).
      rewrite <- trim_end_prefix by (exists c, r; auto). rewrite Ew, trim_end_app_ws by exact Bw. apply Ht. exact I. }
    destruct L as [|x L]; [congruence|]. cbn [map prefixed] in *. injection Hp as H1 H2. pose proof (Forall_inv G) as G1. pose proof (Forall_inv_tail G) as G2. cbn beta in G1.
    rewrite G1, H1. f_equal. rewrite map_map.
    clear - H2 G2. revert n H2. induction G2 as [|y L Hy G2 IH]; intros n H2; [reflexivity|]. cbn [map] in *. destruct n as [|n]; [discriminate|].
    cbn [repeat] in H2. injection H2 as A B. rewrite Hy, A. f_equal. eapply IH, B.
Qed.

Lemma hard_lines_cons : forall p r, r <> [] -> hard_lines (p :: r) = mark_last p ++ hard_lines r.
Proof. intros p [|q r] H; [congruence|reflexivity]. Qed.
Lemma hard_lines_nonempty : forall ps, ps <> [] -> Forall (fun p => p <> []) ps -> hard_lines ps <> [].
Proof.
  intros [|p [|q r]] N F; [congruence|inversion F; assumption|]. rewrite hard_lines_cons by discriminate. unfold mark_last. intro K.
  apply app_eq_nil in K. destruct K as [K _]. apply app_eq_nil in K. destruct K as [_ K]. discriminate.
Qed.
Lemma join_mark : forall f (l : list str), l <> [] -> (forall x, f (x ++ [c_sp; c_sp]) = f x ++ [c_sp; c_sp]) ->
  join [c_nl] (map f (mark_last l)) = join [c_nl] (map f l) ++ [c_sp; c_sp].
Proof.
  intros f l N F. destruct (exists_last N) as (a & z & ->). unfold mark_last. rewrite removelast_last, last_last.
  rewrite !map_app. cbn [map]. rewrite F. destruct a as [|y a]; [reflexivity|]. cbn [map app].
  assert (G : forall (q : list str) x b, join [c_nl] (x :: q ++ [b ++ [c_sp; c_sp]]) = join [c_nl] (x :: q ++ [b]) ++ [c_sp; c_sp]).
  { clear. induction q as [|y q IH]; intros x b; cbn [app]; rewrite !join_cons; [cbn [join]; rewrite <- !app_assoc; reflexivity|].
    rewrite IH, <- !app_assoc. reflexivity. }
  apply G.
Qed.
Lemma prefixed_mark : forall fp cp l, l <> [] -> join [c_nl] (prefixed fp cp (mark_last l)) = join [c_nl] (prefixed fp cp l) ++ [c_sp; c_sp].
Proof.
  intros fp cp [|x [|y l]] N; [congruence|cbn; rewrite app_assoc; reflexivity|].
  assert (E : mark_last (x :: y :: l) = x :: mark_last (y :: l)) by reflexivity. rewrite E. cbn [prefixed].
  assert (M : mark_last (y :: l) <> []) by (unfold mark_last; intro K; apply app_eq_nil in K; destruct K; discriminate).
  pose proof (join_mark (app cp) (y :: l) ltac:(discriminate) ltac:(intro; rewrite app_assoc; reflexivity)) as J.
  destruct (mark_last (y :: l)) as [|m ms]; [congruence|]. cbn [map] in *. 
  apply (f_equal (fun t => (fp ++ x) ++ [c_nl] ++ t)) in J. etransitivity; [exact J|]. rewrite (join_cons _ (fp ++ x) (cp ++ y)), <- !app_assoc. reflexivity.
Qed.
Lemma mark_last_nonempty : forall l, mark_last l <> [].
Proof. intros l K. unfold mark_last in K. apply app_eq_nil in K. destruct K as [_ K]. discriminate. Qed.
Lemma prefixed_app : forall fp cp a b, a <> [] -> prefixed fp cp (a ++ b) = prefixed fp cp a ++ map (app cp) b.
Proof. intros fp cp [|x a] b N; [congruence|]. cbn [app prefixed]. rewrite map_app. reflexivity. Qed.
Lemma prefixed_nonempty : forall fp cp a, a <> [] -> prefixed fp cp a <> [].
Proof. intros fp cp [|x a] N; [congruence|discriminate]. Qed.
Lemma join_hard : forall cp LL fp L, L <> [] -> Forall (fun p => p <> []) LL ->
  join hard_break (join [c_nl] (prefixed fp cp L) :: map (fun l => join [c_nl] (map (app cp) l)) LL)
  = join [c_nl] (prefixed fp cp (hard_lines (L :: LL))).
Proof.
  intros cp. induction LL as [|M LL IH]; intros fp L N F; [reflexivity|]. inversion F as [|? ? F1 F2]; subst.
  rewrite hard_lines_cons by discriminate. rewrite prefixed_app by apply mark_last_nonempty. cbn [map].
  rewrite join_app2; [|apply prefixed_nonempty, mark_last_nonempty|].
  2:{ intro K. apply map_eq_nil in K. revert K. apply hard_lines_nonempty; [discriminate|exact F]. }
  rewrite prefixed_mark by exact N. pose proof (IH cp M F1 F2) as IH'. rewrite !prefixed_same in IH'. rewrite join_cons.
  etransitivity; [|rewrite <- app_assoc; reflexivity]. apply f_equal.
  match type of IH' with _ = ?z => change (join [c_nl] (map (app cp) (hard_lines (M :: LL)))) with z end.
  rewrite <- IH'. reflexivity.
Qed.
Lemma segments_props : forall x, Forall clean_segment (segments x) -> steady false x -> ~ In c_cr x ->
  Forall (fun s => clean_segment s /\ steady false s /\ ~ In c_nl s /\ ~ In c_cr s) (segments x).
Proof.
  intros x C St Nc. pose proof (steady_split c_nl x ltac:(auto) St) as S2. pose proof (split_on_forall c_nl x) as S3.
  assert (S4 : Forall (Forall (fun c => c <> c_cr)) (segments x)).
  { apply Forall_split. apply Forall_forall. intros c I ->. contradiction. }
  rewrite Forall_forall in *. intros s I. repeat split; [apply C, I|apply C, I|apply S2, I| |].
  - intro K. specialize (S3 s I). rewrite Forall_forall in S3. exact (S3 _ K eq_refl).
  - intro K. specialize (S4 s I). rewrite Forall_forall in S4. exact (S4 _ K eq_refl).
Qed.
Lemma pieces_nonempty : forall ss LL, Forall2 text_piece ss LL -> Forall (fun p => p <> []) LL.
Proof. intros ss LL F. induction F as [|s L ss LL P F IH]; constructor; [apply P|exact IH]. Qed.
Lemma layout_first : forall U lw fp cp x, Forall clean_segment (segments x) -> steady false x -> ~ In c_cr x ->
  exists LL, Forall2 text_piece (segments x) LL
  /\ wrap_text_first_line U x fp cp lw = join [c_nl] (prefixed fp cp (hard_lines LL)).
Proof.
  intros U lw fp cp x C St Nc. pose proof (segments_props x C St Nc) as P.
  destruct (segments x) as [|s ss] eqn:Es; [exfalso; eapply split_on_nonempty; eauto|].
  rewrite (wrap_text_first_line_eq U lw x fp cp s ss Es).
  inversion P as [|? ? (P1 & P2 & P3 & P4) Ps]; subst.
  destruct (segment_pieces U lw fp cp s P1 P2 P3 P4) as (L & T & E).
  assert (G : exists LL, Forall2 text_piece ss LL
     /\ map (fun s => cp ++ wrap_text_first_line_segment U s [] cp lw) ss = map (fun l => join [c_nl] (map (app cp) l)) LL).
  { clear - Ps. induction Ps as [|s ss (P1 & P2 & P3 & P4) Ps (LL & F & E)]; [exists []; auto|].
    destruct (segment_pieces U lw [] cp s P1 P2 P3 P4) as (L & T & E').
    exists (L :: LL). split; [constructor; assumption|]. cbn [map]. rewrite E, E'. f_equal.
    destruct L as [|l [|l2 L]]; [destruct T; congruence|reflexivity|]. cbn [prefixed map]. rewrite !join_cons. cbn [app]. rewrite app_assoc. reflexivity. }
  destruct G as (LL & F & E2). exists (L :: LL). split; [constructor; assumption|].
  rewrite E, E2. apply join_hard; [apply T|eapply pieces_nonempty, F].
Qed.
Lemma layout_text : forall U lw p x, Forall clean_segment (segments x) -> steady false x -> ~ In c_cr x ->
  exists LL, Forall2 text_piece (segments x) LL /\ wrap_text U x p lw = join [c_nl] (map (app p) (hard_lines LL)).
Proof.
  intros U lw p x C St Nc. pose proof (segments_props x C St Nc) as P. rewrite wrap_text_eq.
  assert (G : exists LL, Forall2 text_piece (segments x) LL
     /\ map (fun s => wrap_text_segment U s p lw) (segments x) = map (fun l => join [c_nl] (map (app p) l)) LL).
  { clear C St Nc. induction P as [|s ss (P1 & P2 & P3 & P4) Ps (LL & F & E)]; [exists []; auto|].
    destruct (segment_pieces U lw p p s P1 P2 P3 P4) as (L & T & E').
    exists (L :: LL). split; [constructor; assumption|]. cbn [map]. rewrite E, wrap_text_segment_eq, E', prefixed_same. reflexivity. }
  destruct G as (LL & F & E2). exists LL. split; [exact F|]. rewrite E2.
  destruct LL as [|L LL]; [reflexivity|]. apply pieces_nonempty in F. inversion F as [|? ? F1 F2]; subst.
  cbn [map]. rewrite <- (prefixed_same p L), join_hard by assumption. rewrite prefixed_same. reflexivity.
Qed.

(** ** The words read *)
Lemma odd_backslashes_snoc : forall l c, c <> c_bs -> odd_backslashes (l ++ [c]) = false.
Proof.
  intros l c N. unfold odd_backslashes. rewrite rev_app_distr. cbn [rev app run_len].
  destruct (ceq_spec c c_bs) as [|_]; [contradiction|reflexivity].
Qed.
Lemma run_len_app_stop : forall c a x b, x <> c -> run_len c (a ++ x :: b) = run_len c (a ++ [x]).
Proof.
  intros c a x b N. induction a as [|y a IH]; cbn [app run_len]; destruct (ceq_spec x c) as [|_]; try contradiction; [reflexivity|].
  destruct (ceq y c); [rewrite IH|]; reflexivity.
Qed.
Lemma odd_backslashes_word : forall a c w, is_ws c = true -> odd_backslashes (a ++ c :: w) = odd_backslashes w.
Proof.
  intros a c w W. assert (N : c <> c_bs) by (intros ->; discriminate). unfold odd_backslashes.
  rewrite rev_app_distr. cbn [rev]. rewrite <- app_assoc. cbn [app]. rewrite run_len_app_stop by exact N.
  f_equal. clear - N. induction (rev w) as [|y t IH]; cbn [app run_len].
  - destruct (ceq_spec c c_bs); [contradiction|reflexivity].
  - destruct (ceq y c_bs); [rewrite IH|]; reflexivity.
Qed.
(** The last word of a line without white space at its end. *)
Lemma last_word : forall l, l <> [] -> trim_end l = l -> exists w, In w (split_whitespace l) /\ odd_backslashes l = odd_backslashes w.
Proof.
  intro l. remember (List.length l) as n eqn:En. revert l En. induction n as [n IH] using lt_wf_ind. intros l En N T. subst n.
  destruct (fw_split l) as (t & E & [->|(c & t' & -> & W)]).
  - rewrite app_nil_r in E. exists l. split; [|reflexivity]. unfold split_whitespace. rewrite E, <- (app_nil_r (fw l)), split_ws_aux_word.
    + left. rewrite app_nil_r. reflexivity.
    + apply fw_dark.
    + left. rewrite <- E. exact N.
    + auto.
  - assert (T' : trim_end t' = t' /\ t' <> []).
    { destruct (trim_end_app t') as (u & Eu & Wu). destruct (is_nil t') eqn:Z.
      - destruct t'; [|discriminate]. exfalso. rewrite E, trim_end_snoc_ws in T by exact W.
        destruct (trim_end_app (fw l)) as (v & Ev & _). apply (f_equal (@List.length _)) in T. apply (f_equal (@List.length _)) in Ev.
        rewrite !app_length in *. cbn in *. lia.
      - assert (u = []).
        { rewrite E, Eu in T. rewrite app_comm_cons, app_assoc, trim_end_app_ws in T by exact Wu.
          destruct u as [|y u]; [reflexivity|]. exfalso. destruct (trim_end_app (fw l ++ c :: trim_end t')) as (v & Ev & _).
          apply (f_equal (@List.length _)) in T. apply (f_equal (@List.length _)) in Ev. rewrite !app_length in *. cbn in *. rewrite ?app_length in *. cbn in *. lia. }
        subst u. rewrite app_nil_r in Eu. split; [symmetry; exact Eu|]. intros ->. discriminate. }
    destruct T' as [T' N']. destruct (IH (List.length t')) with (l := t') as (w & I & O); auto.
    { rewrite E, app_length. cbn. lia. }
    exists w. split.
    + rewrite E. unfold split_whitespace. rewrite split_ws_aux_app by exact W. apply in_or_app. right. exact I.
    + rewrite E, odd_backslashes_word by exact W. exact O.
Qed.
Lemma text_line_ends : forall l, text_line l -> ends_with [c_sp; c_sp] l = false.
Proof.
  intros l (D & T & _). destruct (ends_with [c_sp; c_sp] l) eqn:E; [|reflexivity]. apply ends_with_true in E. destruct E as [r ->]. exfalso.
  change [c_sp; c_sp] with ([c_sp] ++ [c_sp]) in T. rewrite app_assoc, trim_end_snoc_ws in T by reflexivity.
  destruct (trim_end_app (r ++ [c_sp])) as (v & Ev & _). apply (f_equal (@List.length _)) in T. apply (f_equal (@List.length _)) in Ev.
  rewrite !app_length in *. cbn in *. lia.
Qed.
Lemma split_blank_end : forall l t, Forall (fun c => is_ws c = true) t -> split_whitespace (l ++ t) = split_whitespace l.
Proof.
  intros l t. induction t as [|c t IH] using rev_ind; intro H; [rewrite app_nil_r; reflexivity|].
  apply Forall_app in H. destruct H as [H H']. apply Forall_inv in H'. rename H' into Hc. specialize (IH H). rewrite app_assoc. unfold split_whitespace. rewrite split_ws_aux_app by exact Hc. cbn [split_ws_aux is_nil]. rewrite app_nil_r. exact IH.
Qed.
Definition quiet_line (l : str) : Prop := text_line l /\ odd_backslashes l = false.
Lemma pieces_of_lines : forall ls rest, ls <> [] -> Forall quiet_line ls ->
  line_pieces ls = [List.concat (map split_whitespace ls)]
  /\ (rest <> [] -> line_pieces (mark_last ls ++ rest) = List.concat (map split_whitespace ls) :: line_pieces rest).
Proof.
  intros ls rest N F. induction F as [|l ls (T & O) F IH]; [congruence|]. destruct ls as [|l2 ls].
  - cbn [map List.concat]. rewrite app_nil_r. split; [reflexivity|]. intro R. unfold mark_last. cbn [removelast last app].
    destruct rest as [|r rest]; [congruence|]. cbn [line_pieces].
    assert (B : breaks (l ++ [c_sp; c_sp]) = true).
    { unfold breaks. rewrite (proj2 (ends_with_true _ _)) by eauto. reflexivity. }
    assert (Q : odd_backslashes (l ++ [c_sp; c_sp]) = false).
    { change [c_sp; c_sp] with ([c_sp] ++ [c_sp]). rewrite app_assoc. apply odd_backslashes_snoc. discriminate. }
    rewrite B. unfold line_text. rewrite Q. f_equal. apply split_blank_end. repeat constructor.
  - destruct IH as [I1 I2]; [discriminate|]. assert (B : breaks l = false) by (unfold breaks; rewrite text_line_ends, O by exact T; reflexivity).
    split.
    + change (line_pieces (l :: l2 :: ls)) with
        (if breaks l then split_whitespace (line_text l) :: line_pieces (l2 :: ls)
         else match line_pieces (l2 :: ls) with p :: ps => (split_whitespace l ++ p) :: ps | [] => [] end).
      rewrite B, I1. reflexivity.
    + intro R. specialize (I2 R). change (mark_last (l :: l2 :: ls)) with (l :: mark_last (l2 :: ls)).
      pose proof (mark_last_nonempty (l2 :: ls)) as M. destruct (mark_last (l2 :: ls)) as [|m ms]; [congruence|].
      cbn [app] in *. change (line_pieces (l :: m :: ms ++ rest)) with
        (if breaks l then split_whitespace (line_text l) :: line_pieces (m :: ms ++ rest)
         else match line_pieces (m :: ms ++ rest) with p :: ps => (split_whitespace l ++ p) :: ps | [] => [] end).
      rewrite B, I2. reflexivity.
Qed.
Lemma pieces_read : forall ss LL, Forall2 text_piece ss LL -> Forall (Forall quiet_line) LL -> line_pieces (hard_lines LL) = map words ss.
Proof.
  intros ss LL F. induction F as [|s L ss LL (N & T & W) F IH]; intro Q; [reflexivity|]. inversion Q as [|? ? Q1 Q2]; subst.
  destruct LL as [|M LL].
  - inversion F; subst. cbn [map hard_lines]. rewrite <- W. apply (pieces_of_lines L []); assumption.
  - rewrite hard_lines_cons by discriminate. cbn [map]. rewrite <- W, <- IH by exact Q2.
    apply pieces_of_lines; [exact N|exact Q1|]. apply hard_lines_nonempty; [discriminate|].
    eapply pieces_nonempty; eassumption.
Qed.

(** ** Link definitions *)
Lemma contains_true : forall p s, contains_sub p s = true <-> exists a b, s = a ++ p ++ b.
Proof.
  intros p s. unfold contains_sub. destruct (find_sub p s) as [n|] eqn:E.
  - split; [intros _; eapply find_sub_some, E|reflexivity].
  - split; [discriminate|]. intros (a & b & K). exfalso. exact (find_sub_none _ _ E a b K).
Qed.
Lemma note_head_line : forall s, note_line s = false -> note_head s = None.
Proof.
  intros s H. unfold note_head. unfold note_line in H. destruct (starts_with (lit "[^") s) eqn:E; [|reflexivity]. cbn [andb] in H.
  destruct (take_while _ (skipn 2 s)) as [|x n] eqn:En; [reflexivity|]. destruct (skipn (List.length (x :: n)) (skipn 2 s)) as [|a [|b r]] eqn:K; try reflexivity.
  destruct (ceq_spec a c_rbr) as [->|]; [|reflexivity]. destruct (ceq_spec b c_colon) as [->|]; [|reflexivity]. exfalso.
  assert (D : defines s = true); [|congruence]. unfold defines. apply contains_true.
  exists (firstn 2 s ++ firstn (List.length (x :: n)) (skipn 2 s)), r. rewrite <- app_assoc. change (c_rbr :: c_colon :: r) with ([c_rbr; c_colon] ++ r) in K.
  rewrite <- K, firstn_skipn, firstn_skipn. reflexivity.
Qed.
Lemma aux_contains : forall p b a cur, Forall (fun c => dark_char c = true) p -> p <> [] ->
  exists w x y, In w (split_ws_aux cur (a ++ p ++ b)) /\ w = x ++ p ++ y.
Proof.
  intros p b a. induction a as [|c a IH]; intros cur D N.
  - destruct (fw_split b) as (t & E & T). rewrite E. cbn [app]. rewrite app_assoc.
    rewrite split_ws_aux_word; [|apply Forall_app; split; [exact D|apply fw_dark]|left; intro K; apply app_eq_nil in K; tauto|exact T].
    exists (rev cur ++ p ++ fw b), (rev cur), (fw b). split; [left; reflexivity|reflexivity].
  - cbn [app split_ws_aux]. destruct (is_ws c).
    + destruct (IH [] D N) as (w & x & y & I & E). exists w, x, y. split; [|exact E]. destruct (is_nil cur); [exact I|right; exact I].
    + apply (IH (c :: cur) D N).
Qed.
Lemma word_contains : forall p l, Forall (fun c => dark_char c = true) p -> p <> [] -> contains_sub p l = true ->
  exists w, In w (split_whitespace l) /\ contains_sub p w = true.
Proof.
  intros p l D N H. apply contains_true in H. destruct H as (a & b & ->). destruct (aux_contains p b a [] D N) as (w & x & y & I & ->).
  exists (x ++ p ++ y). split; [exact I|]. apply contains_true. eauto.
Qed.
Lemma read_until_split : forall n stop bad s lab r, List.length s <= n -> read_until stop bad s = Some (lab, r) ->
  exists a c, s = a ++ c :: r /\ stop c = true.
Proof.
  induction n as [|n IH]; intros stop bad s lab r L H; (destruct s as [|c s]; [discriminate|]); cbn [List.length] in L; [lia|].
  cbn [read_until] in H. destruct (N.eqb c c_bs).
  - destruct s as [|d s]; [discriminate|]. destruct (read_until stop bad s) as [[lab' r']|] eqn:E; [|discriminate]. cbn in H. injection H as _ <-.
    apply IH in E; [|cbn in L; lia]. destruct E as (a & x & -> & S). exists (c :: d :: a), x. auto.
  - destruct (stop c) eqn:S; [injection H as _ <-; exists [], c; auto|]. destruct (bad c); [discriminate|].
    destruct (read_until stop bad s) as [[lab' r']|] eqn:E; [|discriminate]. cbn in H. injection H as _ <-.
    apply IH in E; [|lia]. destruct E as (a & x & -> & S'). exists (c :: a), x. auto.
Qed.
Lemma definition_defines : forall l d, read_definition (l ++ [c_nl]) = Some d -> starts_with [c_lbr] l = true /\ defines l = true.
Proof.
  intros l d H. destruct l as [|c s]; [discriminate|]. cbn [app] in H. unfold read_definition in H.
  destruct (N.eqb c c_lbr) eqn:C; [|discriminate]. apply N.eqb_eq in C. subst c. split; [reflexivity|].
  destruct (read_until (N.eqb c_rbr) (N.eqb c_lbr) (s ++ [c_nl])) as [[lab [|colon [|sp s1]]]|] eqn:E; try discriminate.
  destruct (N.eqb colon c_colon && N.eqb sp c_sp && existsb (fun c => negb (is_ws c)) lab) eqn:Q; [|discriminate].
  rewrite !andb_true_iff in Q. destruct Q as [[Q _] _]. apply N.eqb_eq in Q. subst colon.
  apply (read_until_split (List.length (s ++ [c_nl]))) in E; [|lia]. destruct E as (a & x & E & X). apply N.eqb_eq in X. subst x.
  unfold defines. apply contains_true. exists (c_lbr :: a).
  destruct (exists_last (l := sp :: s1) ltac:(discriminate)) as (z & y & Z). rewrite Z in E. exists z. cbn [app]. f_equal.
  replace (a ++ c_rbr :: c_colon :: z ++ [y]) with ((a ++ c_rbr :: c_colon :: z) ++ [y]) in E by (rewrite <- app_assoc; reflexivity).
  apply app_inj_tail in E. destruct E as [E _]. exact E.
Qed.

(** ** Reading *)
Definition plain_line (l : str) : Prop := begins_dark l /\ opener (fw l) = false /\ note_line l = false.
(** What may follow a paragraph. *)
Definition stops (rest : list str) : Prop :=
  match rest with
  | [] => True
  | l :: _ => is_blank l = true
              \/ exists s, margin l = Some s /\ is_blank l = false /\ underline s = None /\ strange s = false /\ delimiter_row s = false /\ interrupts s = true
  end.
Definition ended (rest : list str) : Prop := continuation rest = Some ([], None, rest).
Lemma stops_ended : forall rest, stops rest -> ended rest.
Proof.
  intros [|l r] S; [reflexivity|]. unfold ended. cbn [stops continuation] in *. destruct S as [->|(s & M & -> & Ur & St & Dr & It)]; [reflexivity|].
  rewrite M, Ur, St, Dr, It. unfold strange in St. apply orb_false_iff in St. destruct St as [St _]. apply orb_false_iff in St.
  rewrite (details_head_line l s M (proj2 St)). reflexivity.
Qed.
Lemma continuation_ended : forall more rest, Forall plain_line more -> ended rest -> continuation (more ++ rest) = Some (more, None, rest).
Proof.
  intros more rest F S. induction F as [|l more (D & O & N) F IH]; cbn [app]; [exact S|].
  cbn [continuation]. destruct (plain_strange l O) as [S1 S2]. destruct (dark_margin l D) as (M & Bl & _). rewrite Bl, (details_head_line l l M S2), M, (plain_underline l O).
  unfold strange. rewrite S1, S2, N, (plain_row l O), (plain_interrupts l D O), IH. reflexivity.
Qed.
Lemma continuation_plain : forall more rest, Forall plain_line more -> stops rest -> continuation (more ++ rest) = Some (more, None, rest).
Proof. intros more rest F S. apply continuation_ended; [exact F|apply stops_ended; exact S]. Qed.
Lemma marker_none : forall l, marker_of (fw l) = None -> marker_of l = None.
Proof.
  intros l H. destruct (marker_of l) as [[m r]|] eqn:M; [|reflexivity]. pose proof (marker_fw l m r M) as F. destruct m as [c|ds d]; [|congruence].
  destruct F as [B F]. rewrite F in H. cbn [marker_of] in H. rewrite B in H. discriminate.
Qed.
Lemma step_para : forall f l more rest, plain_line l -> marker_of l = None ->
  (starts_with [c_lbr] l = true -> Forall (fun l => defines l = false) (l :: more)) ->
  Forall plain_line more -> ended rest -> read_step f (l :: more ++ rest) = read_text f (line_pieces (l :: more)) rest.
Proof.
  intros f l more rest (D & O & N) M Df F S. cbn [read_step].
  destruct (dark_margin l D) as (-> & -> & _). rewrite (plain_fence l D O), (plain_rule l O), (plain_atx l O), (plain_quote l O), M.
  cbn [is_some]. destruct (plain_strange l O) as [S1 S2]. unfold strange. rewrite S1, S2, N, (note_head_line l N). cbn [orb].
  destruct (read_definition (l ++ [c_nl])) as [d|] eqn:E.
  { apply definition_defines in E. destruct E as [E1 E2]. specialize (Df E1). apply Forall_inv in Df. congruence. }
  unfold read_paragraph. rewrite continuation_ended by assumption.
  assert (G : starts_with [c_lbr] l && existsb defines (l :: more) = false).
  { destruct (starts_with [c_lbr] l); [|reflexivity]. cbn [andb]. specialize (Df eq_refl). apply not_true_iff_false. intro K.
    apply existsb_exists in K. destruct K as (y & I & K). rewrite Forall_forall in Df. rewrite (Df y I) in K. discriminate. }
  rewrite G. reflexivity.
Qed.
Lemma reads_para : forall l more rest bs, plain_line l -> marker_of l = None ->
  (starts_with [c_lbr] l = true -> Forall (fun l => defines l = false) (l :: more)) ->
  Forall plain_line more -> stops rest -> reads rest bs -> reads (l :: more ++ rest) (Para (line_pieces (l :: more)) :: bs).
Proof.
  intros l more rest bs P M Df F S R. pose proof (reads_no_details rest bs R) as Nd. destruct R as [n R]. apply reads_step. exists n.
  rewrite step_para; auto; [|apply stops_ended; exact S]. unfold read_text. rewrite Nd, R. reflexivity.
Qed.

(** ** Safe text *)
Lemma words_segments : forall x, words x = List.concat (map words (segments x)).
Proof.
  intro x. rewrite <- (join_split_on c_nl x) at 1. unfold segments. apply words_join. left. reflexivity.
Qed.
Lemma hard_split : forall LL, Forall (fun p => p <> []) LL ->
  List.concat (map split_whitespace (hard_lines LL)) = List.concat (map (fun L => List.concat (map split_whitespace L)) LL).
Proof.
  induction LL as [|L LL IH]; intro F; [reflexivity|]. inversion F as [|? ? F1 F2]; subst. destruct LL as [|M LL].
  - cbn. rewrite app_nil_r. reflexivity.
  - rewrite hard_lines_cons by discriminate. rewrite map_app, concat_app, IH by exact F2. cbn [map List.concat]. f_equal.
    destruct (exists_last F1) as (a & z & ->). unfold mark_last. rewrite removelast_last, last_last, !map_app, !concat_app. cbn [map].
    rewrite split_blank_end by (repeat constructor). reflexivity.
Qed.
Lemma hard_in : forall LL l, Forall (fun p => p <> []) LL -> In l (hard_lines LL) ->
  exists L k, In L LL /\ In k L /\ (l = k \/ l = k ++ [c_sp; c_sp]).
Proof.
  induction LL as [|L LL IH]; intros l F H; [destruct H|]. inversion F as [|? ? F1 F2]; subst. destruct LL as [|M LL].
  - exists L, l. cbn in H. repeat split; auto. left. reflexivity.
  - rewrite hard_lines_cons in H by discriminate. apply in_app_or in H. destruct H as [H|H].
    + exists L. destruct (exists_last F1) as (a & z & ->). unfold mark_last in H. rewrite removelast_last, last_last in H.
      apply in_app_or in H. destruct H as [H|[<-|[]]]; [exists l|exists z]; (split; [left; reflexivity|]); rewrite in_app_iff; cbn; auto.
    + destruct (IH l F2 H) as (L' & k & I1 & I2 & I3). exists L', k. split; [right; exact I1|auto].
Qed.
Lemma fw_marked : forall k, begins_dark k -> fw (k ++ [c_sp; c_sp]) = fw k /\ begins_dark (k ++ [c_sp; c_sp]).
Proof.
  intros k (c & r & -> & D). split; [|exists c, (r ++ [c_sp; c_sp]); auto].
  destruct (fw_split (c :: r)) as (t & E & T). rewrite E at 1. rewrite <- app_assoc. apply fw_word; [apply fw_dark|].
  destruct T as [->|(y & t' & -> & W)]; right; [exists c_sp, [c_sp]|exists y, (t' ++ [c_sp; c_sp])]; auto.
Qed.

(** The lines of a safe text. *)
Record para_lines (x : str) (ls : list str) : Prop := {
  pl_nonempty : ls <> [];
  pl_plain : Forall plain_line ls;
  pl_chars : Forall (Forall (fun c => c <> c_nl /\ c <> c_cr /\ c <> soft)) ls;
  pl_marker : marker_of (hd [] ls) = None;
  pl_define : starts_with [c_lbr] (hd [] ls) = true -> Forall (fun l => defines l = false) ls;
  pl_pieces : line_pieces ls = map words (segments x);
  pl_words : List.concat (map split_whitespace ls) = words x;
  pl_end : trim_end (last ls []) = last ls []
}.
Lemma safe_lines : forall x LL, safe_text x -> Forall2 text_piece (segments x) LL -> para_lines x (hard_lines LL).
Proof.
  intros x LL S F. pose proof (pieces_nonempty _ _ F) as NE.
  assert (LN : LL <> []). { intros ->. inversion F as [K|]; subst. symmetry in K. revert K. apply split_on_nonempty. }
  pose proof (hard_lines_nonempty LL LN NE) as HN.
  assert (W : List.concat (map split_whitespace (hard_lines LL)) = words x).
  { rewrite hard_split by exact NE. rewrite words_segments. clear - F. induction F as [|s L ss LL (_ & _ & W) F IH]; [reflexivity|].
    cbn [map List.concat]. rewrite IH, W. reflexivity. }
  assert (T : Forall (Forall text_line) LL).
  { clear - F. induction F as [|s L ss LL (_ & T & _) F IH]; constructor; assumption. }
  assert (IW : forall l, In l (hard_lines LL) -> forall w, In w (split_whitespace l) -> In w (words x)).
  { intros l I w Iw. rewrite <- W. apply in_concat. exists (split_whitespace l). split; [apply in_map; exact I|exact Iw]. }
  assert (B : forall l, In l (hard_lines LL) -> begins_dark l).
  { intros l I. destruct (hard_in LL l NE I) as (L & k & I1 & I2 & I3). rewrite Forall_forall in T. specialize (T L I1). rewrite Forall_forall in T.
    destruct (T k I2) as (D & _). destruct I3 as [->| ->]; [exact D|apply fw_marked; exact D]. }
  assert (FWI : forall l, In l (hard_lines LL) -> In (fw l) (words x)).
  { intros l I. apply (IW l I). destruct (first_word l (B l I)) as (t & _ & _ & _ & ->). left. reflexivity. }
  pose proof (st_words x S) as SW. rewrite Forall_forall in SW.
  assert (DF : forall l, In l (hard_lines LL) -> Forall (fun w => defines w = false) (words x) -> defines l = false).
  { intros l I H. unfold defines. destruct (contains_sub [c_rbr; c_colon] l) eqn:K; [|reflexivity].
    apply word_contains in K; [|dark_lit|discriminate]. destruct K as (w & Iw & K). rewrite Forall_forall in H. specialize (H w (IW l I w Iw)). unfold defines in H. congruence. }
  destruct (hard_lines LL) as [|l0 more] eqn:EH; [congruence|].
  assert (H0 : hd [] (words x) = fw l0).
  { rewrite <- W. destruct (first_word l0 (B l0 ltac:(left; reflexivity))) as (t & _ & _ & _ & K). cbn [map List.concat]. rewrite K. reflexivity. }
  constructor.
  - discriminate.
  - apply Forall_forall. intros l I. split; [apply B, I|]. split; [apply SW, FWI, I|].
    unfold note_line. destruct (starts_with (lit "[^") l) eqn:K; [|reflexivity]. cbn [andb]. apply DF; [exact I|].
    apply (st_no_definition x S). right. apply Exists_exists. exists (fw l). split; [apply FWI, I|]. rewrite <- starts_fw by dark_lit. exact K.
  - rewrite <- EH. apply Forall_forall. intros l I. destruct (hard_in LL l NE I) as (L & k & I1 & I2 & I3).
    rewrite Forall_forall in T. specialize (T L I1). rewrite Forall_forall in T. destruct (T k I2) as (_ & _ & C).
    destruct I3 as [->| ->]; [exact C|]. apply Forall_app. split; [exact C|]. repeat (constructor; [repeat split; discriminate|]). constructor.
  - apply marker_none. cbn [hd]. rewrite <- H0. apply (st_first x S).
  - cbn [hd]. intro K. apply Forall_forall. intros l I. apply DF; [exact I|]. apply (st_no_definition x S). left. rewrite H0, <- starts_fw by dark_lit. exact K.
  - rewrite <- EH. apply pieces_read; [exact F|]. rewrite Forall_forall in *. intros L I. specialize (T L I). rewrite Forall_forall in *. intros k Ik.
    pose proof (T k Ik) as Tk. split; [exact Tk|]. destruct Tk as ((c & r & -> & D) & Te & _).
    destruct (last_word (c :: r)) as (w & Iw & ->); [discriminate|exact Te|]. apply SW. rewrite <- W, <- EH, hard_split by (apply Forall_forall; exact NE).
    apply in_concat. exists (List.concat (map split_whitespace L)). split; [apply in_map_iff; eauto|].
    apply in_concat. exists (split_whitespace (c :: r)). split; [apply in_map; exact Ik|exact Iw].
  - exact W.
  - rewrite <- EH. clear - T NE LN. induction LL as [|L LL IH]; [congruence|]. inversion T as [|? ? T1 T2]; subst. inversion NE as [|? ? N1 N2]; subst.
    destruct LL as [|M LL].
    + cbn [hard_lines]. destruct (exists_last N1) as (a & z & ->). rewrite last_last. apply Forall_app in T1. destruct T1 as [_ T1]. apply Forall_inv in T1. apply T1.
    + rewrite hard_lines_cons by discriminate. pose proof (hard_lines_nonempty (M :: LL) ltac:(discriminate) N2) as HN.
      specialize (IH N2 ltac:(discriminate) T2). destruct (exists_last HN) as (a & z & E). rewrite E in *. rewrite app_assoc, last_last in *. exact IH.
Qed.
Lemma para_lines_read : forall x ls rest bs, para_lines x ls -> stops rest -> reads rest bs ->
  reads (ls ++ rest) (Para (map words (segments x)) :: bs).
Proof.
  intros x ls rest bs P S R. destruct ls as [|l more]; [destruct (pl_nonempty _ _ P eq_refl)|].
  rewrite <- (pl_pieces _ _ P). pose proof (pl_plain _ _ P) as Pl. apply reads_para; auto.
  - apply (Forall_inv Pl).
  - exact (pl_marker _ _ P).
  - exact (pl_define _ _ P).
  - apply (Forall_inv_tail Pl).
Qed.

(** ** Deciding [safe_text], for examples *)
Lemma forallb_all : forall A (p : A -> bool) l, forallb p l = true -> Forall (fun x => p x = true) l.
Proof. intros A p l H. apply Forall_forall. apply forallb_forall. exact H. Qed.
Fixpoint steadyb (prev : bool) (s : str) : bool :=
  match s with
  | [] => true
  | c :: r => (negb (is_ws c) || ceq c c_sp || ceq c c_nl || prev) && steadyb (negb (ceq c c_sp || ceq c c_nl || ceq c soft)) r
  end.
Lemma steadyb_ok : forall s p, steadyb p s = true -> steady p s.
Proof.
  induction s as [|c s IH]; intros p H; [exact Logic.I|]. cbn [steadyb] in H. apply andb_true_iff in H. destruct H as [H1 H2]. split; [|apply IH, H2].
  intro W. rewrite W in H1. cbn [negb orb] in H1. rewrite !orb_true_iff, !ceq_true in H1. tauto.
Qed.
Definition clean_segmentb (s : str) : bool :=
  negb (starts_with [c_sp] s) && forallb (fun l => negb (forallb is_ws l)) (soft_lines s).
Lemma clean_segmentb_ok : forall s, clean_segmentb s = true -> clean_segment s.
Proof.
  intros s H. unfold clean_segmentb in H. apply andb_true_iff in H. destruct H as [H1 H2]. split.
  - intros r ->. discriminate H1.
  - apply forallb_all in H2. eapply Forall_impl; [|exact H2]. cbn beta. intros l Hl Hb. apply forallb_Forall in Hb. rewrite Hb in Hl. discriminate.
Qed.
Definition safe_textb (x : str) : bool :=
  forallb clean_segmentb (segments x) && steadyb false x && negb (existsb (ceq c_cr) x)
  && forallb (fun w => negb (opener w) && negb (odd_backslashes w)) (words x)
  && negb (is_some (marker_of (hd [] (words x))))
  && (negb (starts_with [c_lbr] (hd [] (words x)) || existsb (starts_with (lit "[^")) (words x)) || forallb (fun w => negb (defines w)) (words x)).
Lemma safe_textb_ok : forall x, safe_textb x = true -> safe_text x.
Proof.
  intros x H. unfold safe_textb in H. rewrite !andb_true_iff in H. destruct H as [[[[[H1 H2] H3] H4] H5] H6]. constructor.
  - apply forallb_all in H1. eapply Forall_impl; [|exact H1]. apply clean_segmentb_ok.
  - apply steadyb_ok, H2.
  - intro K. apply negb_true_iff in H3. rewrite <- not_true_iff_false in H3. apply H3. apply existsb_exists. exists c_cr. split; [exact K|apply ceq_refl].
  - apply forallb_all in H4. eapply Forall_impl; [|exact H4]. cbn beta. intros w K. apply andb_true_iff in K. rewrite !negb_true_iff in K. exact K.
  - destruct (marker_of (hd [] (words x))); [discriminate|reflexivity].
  - intro K. apply orb_true_iff in H6. destruct H6 as [H6|H6].
    + exfalso. apply negb_true_iff, orb_false_iff in H6. destruct H6 as [A B]. destruct K as [K|K]; [congruence|].
      apply Exists_exists in K. destruct K as (w & I & K). rewrite <- not_true_iff_false in B. apply B. apply existsb_exists. eauto.
    + apply forallb_all in H6. eapply Forall_impl; [|exact H6]. cbn beta. intros w. apply negb_true_iff.
Qed.
