(** C43: wrapping a paragraph leaves a paragraph with the same words. *)
From Coq Require Import Bool Arith NArith Lia ZifyBool ZifyNat ZifyN String List.
From Verif Require Import Base BaseFacts WrapModel SpecWrap WrapProof SpecCode SpecHeading SpecRefs SpecBlocks CodeProof BlocksProof ParaProof NestProof.
Import ListNotations.

Lemma char_line : forall ls, Forall (Forall (fun c => c <> c_nl /\ c <> c_cr /\ c <> soft)) ls -> Forall (Forall line_char) ls.
Proof. intros ls H. eapply Forall_impl; [|exact H]. intros l F. eapply Forall_impl; [|exact F]. cbn beta. unfold line_char. tauto. Qed.
Lemma wrapped_lines : forall U x p lw, safe_text x -> exists ls, para_lines x ls
  /\ wrap_text U x p lw ++ [c_nl] = text_of (map (app p) ls).
Proof.
  intros U x p lw S. destruct (layout_text U lw p x (st_clean x S) (st_steady x S) (st_no_cr x S)) as (LL & F & E).
  exists (hard_lines LL). pose proof (safe_lines x LL S F) as P. split; [exact P|]. rewrite E. apply text_of_join.
  intro K. apply map_eq_nil in K. exact (pl_nonempty _ _ P K).
Qed.
Lemma wrapped_first_lines : forall U x fp cp lw, safe_text x -> exists l ls, para_lines x (l :: ls)
  /\ wrap_text_first_line U x fp cp lw ++ [c_nl] = text_of ((fp ++ l) :: map (app cp) ls).
Proof.
  intros U x fp cp lw S. destruct (layout_first U lw fp cp x (st_clean x S) (st_steady x S) (st_no_cr x S)) as (LL & F & E).
  pose proof (safe_lines x LL S F) as P. destruct (hard_lines LL) as [|l ls]; [destruct (pl_nonempty _ _ P eq_refl)|].
  exists l, ls. split; [exact P|]. rewrite E. apply text_of_join. discriminate.
Qed.

(** A paragraph, whatever follows it after an empty line: however the lines
    are broken, the same words in the same order between the same hard
    breaks, and nothing else. *)
Theorem C43_paragraph : forall U x lw rest bs, safe_text x -> reads (cm_lines rest) bs ->
  reads (cm_lines (wrap_text U x [] lw ++ [c_nl])) [Para (map words (segments x))]
  /\ reads (cm_lines (wrap_text U x [] lw ++ [c_nl; c_nl] ++ rest)) (Para (map words (segments x)) :: bs).
Proof.
  intros U x lw rest bs S R. destruct (wrapped_lines U x [] lw S) as (ls & P & E).
  assert (M : map (app (A := char) []) ls = ls) by (rewrite <- (map_id ls) at 2; reflexivity). rewrite M in E.
  pose proof (char_line ls (pl_chars _ _ P)) as L. split.
  - rewrite E, cm_lines_text_of by exact L. rewrite <- (app_nil_r ls).
    apply (proj2 (para_block x ls P)); [exact Logic.I|apply reads_nil].
  - replace (wrap_text U x [] lw ++ [c_nl; c_nl] ++ rest) with ((wrap_text U x [] lw ++ [c_nl]) ++ c_nl :: rest) by (rewrite <- app_assoc; reflexivity).
    rewrite E, cm_lines_text by exact L. change (c_nl :: rest) with ([] ++ c_nl :: rest). rewrite cm_lines_line by constructor.
    apply (proj2 (para_block x ls P)); [left; reflexivity|]. apply reads_blank; [reflexivity|exact R].
Qed.
Print Assumptions C43_paragraph.

(** Inside block quotes. *)
Fixpoint quoted (k : nat) (bs : list block) : list block := match k with 0 => bs | S j => [Quote (quoted j bs)] end.
Definition quote_marks (k : nat) : str := List.concat (repeat (lit "> ") k).
Fixpoint quo_times (k : nat) (l : str) : str := match k with 0 => l | S j => quo (quo_times j l) end.
Lemma quo_times_marks : forall k l, l <> [] -> quo_times k l = quote_marks k ++ l /\ quo_times k l <> [].
Proof.
  induction k as [|k IH]; intros l N; [split; [reflexivity|exact N]|]. destruct (IH l N) as [E M]. cbn [quo_times].
  assert (Q : quo (quo_times k l) = lit "> " ++ quo_times k l) by (unfold quo; destruct (quo_times k l); [congruence|reflexivity]).
  split; [|rewrite Q; discriminate]. rewrite Q, E. unfold quote_marks. cbn [repeat List.concat]. rewrite <- app_assoc. reflexivity.
Qed.
Lemma quoted_reads : forall k ls bs, ls <> [] -> Forall (fun l => tabbed l = false) ls -> quote_sort_of (hd [] ls) = Plain_quote -> reads ls bs ->
  reads (map (quo_times k) ls) (quoted k bs) /\ quote_sort_of (hd [] (map (quo_times k) ls)) = Plain_quote
  /\ Forall (fun l => tabbed l = false) (map (quo_times k) ls).
Proof.
  induction k as [|k IH]; intros ls bs N F Q R.
  - cbn [quo_times]. rewrite map_id. auto.
  - destruct (IH ls bs N F Q R) as (R1 & Q1 & F1). cbn [quo_times quoted].
    assert (M : map (fun l => quo (quo_times k l)) ls = map quo (map (quo_times k) ls)) by (rewrite map_map; reflexivity). rewrite M.
    assert (N1 : map (quo_times k) ls <> []) by (destruct ls; [congruence|discriminate]).
    split; [|split].
    + rewrite <- (app_nil_r (map quo _)). apply (proj2 (quote_block _ _ N1 F1 Q1 R1)); [exact Logic.I|apply reads_nil].
    + destruct (map (quo_times k) ls) as [|y ys]; [congruence|]. cbn [map hd]. destruct (quo_eq y) as [r ->]. reflexivity.
    + apply Forall_map. apply Forall_forall. intros y _. destruct (quo_eq y) as [r ->]. reflexivity.
Qed.
Lemma sort_of_first : forall x l ls, para_lines x (l :: ls) -> unalerted x -> quote_sort_of l = Plain_quote.
Proof.
  intros x l ls P U. pose proof (Forall_inv (pl_plain _ _ P)) as (D & _). destruct (first_word l D) as (t & E & _ & T & Sp).
  assert (H : hd [] (words x) = fw l) by (rewrite <- (pl_words _ _ P); cbn [map List.concat]; rewrite Sp; reflexivity).
  unfold unalerted in U. rewrite H in U. unfold quote_sort_of in *. rewrite (starts_fw (lit "[!") l) by dark_lit.
  destruct (starts_with (lit "[!") (fw l)) eqn:St; [|reflexivity].
  apply starts_with_true in St. destruct St as [r Er].
  assert (Fd : find (fun a => seqb l (lit "[!" ++ a ++ lit "]")) alert_names = None).
  { destruct (find (fun a => seqb l (lit "[!" ++ a ++ lit "]")) alert_names) as [a|] eqn:Fa; [|reflexivity]. exfalso.
    apply find_some in Fa. destruct Fa as [Ia Ea]. apply seqb_true in Ea.
    assert (fw l = l).
    { rewrite Ea. clear - Ia. cbn [alert_names In] in Ia. destruct Ia as [<-|[<-|[<-|[<-|[<-|[]]]]]]; reflexivity. }
    rewrite H0 in U. destruct (find (fun a => seqb l (lit "[!" ++ a ++ lit "]")) alert_names) as [a'|] eqn:Fa'; [discriminate|].
    eapply find_none in Fa'; [|exact Ia]. cbn beta in Fa'. rewrite <- Ea in Fa'. rewrite (proj2 (seqb_true _ _) eq_refl) in Fa'. discriminate. }
  rewrite Fd. destruct (find (fun a => seqb (fw l) (lit "[!" ++ a ++ lit "]")) alert_names); [discriminate|].
  rewrite E. rewrite Er in *. change (skipn 2 (lit "[!" ++ r)) with r in U. change (skipn 2 ((lit "[!" ++ r) ++ t)) with (r ++ t).
  destruct r as [|c r]; [|exact U]. cbn [app]. destruct T as [->|(c & t' & -> & W)]; [reflexivity|].
  assert (L : is_ascii_upper c || is_ascii_lower c = false) by (unfold is_ws in W; unfold is_ascii_upper, is_ascii_lower; lia). rewrite L. reflexivity.
Qed.
Theorem C43_quoted : forall U x lw k, safe_text x -> (k <> 0 -> unalerted x) ->
  reads (cm_lines (wrap_text U x (quote_marks k) lw ++ [c_nl])) (quoted k [Para (map words (segments x))]).
Proof.
  intros U x lw k S A. destruct (wrapped_lines U x (quote_marks k) lw S) as (ls & P & E). rewrite E.
  assert (M : map (app (quote_marks k)) ls = map (quo_times k) ls).
  { apply map_ext_in. intros l I. symmetry. apply quo_times_marks. intros ->. pose proof (pl_plain _ _ P) as Pl. rewrite Forall_forall in Pl.
    destruct (Pl _ I) as ((c & r & K & _) & _). discriminate. }
  rewrite cm_lines_text_of.
  - rewrite M. destruct k as [|k].
    + cbn [quo_times quoted]. rewrite map_id, <- (app_nil_r ls). apply (proj2 (para_block x ls P)); [exact Logic.I|apply reads_nil].
    + apply quoted_reads.
      * exact (pl_nonempty _ _ P).
      * eapply Forall_impl; [|exact (pl_plain _ _ P)]. intros l (D & _). apply (dark_margin l D).
      * destruct ls as [|l ls]; [destruct (pl_nonempty _ _ P eq_refl)|]. eapply sort_of_first; [exact P|]. apply A. discriminate.
      * rewrite <- (app_nil_r ls). apply (proj2 (para_block x ls P)); [exact Logic.I|apply reads_nil].
  - apply Forall_map. rewrite Forall_forall. intros l I. apply Forall_app. split.
    + clear. unfold quote_marks. induction k as [|k IH]; [constructor|]. cbn [repeat List.concat]. apply Forall_app. split; [repeat (constructor; [split; discriminate|]); constructor|exact IH].
    + pose proof (char_line ls (pl_chars _ _ P)) as L. rewrite Forall_forall in L. apply L, I.
Qed.
Print Assumptions C43_quoted.

(** In a list item: [h] is the marker with the spaces around it. *)
Theorem C43_item : forall U x lw h m w, safe_text x -> unboxed x -> item_mark h m w ->
  reads (cm_lines (h ++ wrap_text_first_line U x [] (spaces w) lw ++ [c_nl]))
        [SpecBlocks.List m [(None, [Para (map words (segments x))])]].
Proof.
  intros U x lw h m w S B H. destruct (wrapped_first_lines U x [] (spaces w) lw S) as (l & ls & P & E).
  pose proof (Forall_inv (pl_plain _ _ P)) as (D & O & _). pose proof (char_line _ (pl_chars _ _ P)) as L.
  assert (M : map (app (spaces w)) ls = map (ind w) ls).
  { apply map_ext_in. intros y I. pose proof (Forall_inv_tail (pl_plain _ _ P)) as Pl. rewrite Forall_forall in Pl.
    destruct (Pl _ I) as ((c & r & -> & _) & _). reflexivity. }
  assert (Sp : forall n, Forall line_char (spaces n)) by (intro n; apply repc_forall; split; discriminate).
  assert (Q : h ++ wrap_text_first_line U x [] (spaces w) lw ++ [c_nl] = text_of ((h ++ l) :: map (ind w) ls ++ []))
    by (rewrite E, M; rewrite app_nil_r; unfold text_of; cbn [flat_map]; rewrite <- !app_assoc; reflexivity).
  rewrite Q, cm_lines_text_of.
  - assert (K : [SpecBlocks.List m [(None, [Para (map words (segments x))])]] = add_item m (None, [Para (map words (segments x))]) [] []) by reflexivity.
    rewrite K. apply reads_item with (l0 := l).
    + destruct H; lia.
    + right. reflexivity.
    + apply mark_head; [exact H|apply plain_unruled; [exact D|exact O|eapply mark_bullet, H]|exact D].
    + eapply unboxed_first; eassumption.
    + right. eapply Forall_impl; [|exact (Forall_inv_tail (pl_plain _ _ P))]. intros y (Dy & _). apply (dark_margin y Dy).
    + exact Logic.I.
    + intros k Fk. change (l :: ls ++ k) with ((l :: ls) ++ k). apply (proj2 (para_block x _ P)).
      * destruct k as [|y k]; [exact Logic.I|left; apply (Forall_inv Fk)].
      * rewrite <- (app_nil_r k). apply reads_blanks; [exact Fk|apply reads_nil].
    + apply reads_nil.
  - rewrite app_nil_r. constructor.
    + apply Forall_app. split; [|apply (Forall_inv L)].
      destruct H as [a c b Bc _ _|a ds d b Fd _ Dd _ _]; rewrite !Forall_app; repeat split; auto.
      * repeat constructor; apply bullet_dark in Bc; intros ->; discriminate.
      * eapply Forall_impl; [|exact Fd]. intros c Dc. apply digit_dark in Dc. split; intros ->; discriminate.
      * repeat constructor; intros ->; destruct Dd; discriminate.
    + apply Forall_map. eapply Forall_impl; [|exact (Forall_inv_tail L)]. intros y Fy. unfold ind. destruct y; [constructor|]. cbn [is_nil]. apply Forall_app. auto.
Qed.
Print Assumptions C43_item.

(** A text with a link, a code span, an option and an escaped marker, with a
    source line ending and a hard line break. *)
Definition C43_text : str :=
  lit "see [the guide][1] and `a b` for" ++ [soft] ++ lit "the -v option \- or 2) as well" ++ [c_nl] ++ lit "then go on".
Example C43_text_safe : safe_text C43_text /\ unalerted C43_text /\ unboxed C43_text.
Proof.
  split; [apply safe_textb_ok; vm_compute; reflexivity|]. split; [reflexivity|]. split.
  - intros ws K. vm_compute in K. discriminate.
  - intro K. vm_compute in K. repeat (destruct K as [K|K]; [discriminate|]). destruct K.
Qed.
Example C43_example :
  cm_lines (wrap_text uni_ascii C43_text [] 12 ++ [c_nl])
    = [lit "see"; lit "[the guide][1]"; lit "and `a b`"; lit "for the -v"; lit "option \-"; lit "or 2) as"; lit "well  "; lit "then go on"]
  /\ read 9 (cm_lines (wrap_text uni_ascii C43_text [] 12 ++ [c_nl])) = Some [Para (map words (segments C43_text))]
  /\ map (@List.length str) (map words (segments C43_text)) = [15; 3].
Proof. repeat split; vm_compute; reflexivity. Qed.
Example C43_item_example :
  item_mark (lit " -  ") (BulletOf c_dash) 4
  /\ cm_lines (lit " -  " ++ wrap_text_first_line uni_ascii (lit "some words in a row") [] (spaces 4) 14 ++ [c_nl])
     = [lit " -  some words in"; lit "    a row"].
Proof. split; [exact (bullet_mark 1 c_dash 2 eq_refl ltac:(lia) ltac:(lia))|vm_compute; reflexivity]. Qed.

(** Without [safe_text] the claim is false: wrapping does not look at what a
    line would begin with.  Each of these texts is one paragraph when written
    on one line, and something else when wrapped. *)
Definition one_paragraph (x : str) : Prop := reads (cm_lines (x ++ [c_nl])) [Para [words x]].
Lemma reads_other : forall ls bs bs', reads ls bs -> bs <> bs' -> ~ reads ls bs'.
Proof. intros ls bs bs' R N R'. apply N. eapply reads_unique; eassumption. Qed.
Ltac wrapped_witness C :=
  split; [exists 9; vm_compute; reflexivity|split; [apply C; vm_compute; reflexivity|split; [apply steadyb_ok; vm_compute; reflexivity|exists 9; vm_compute; reflexivity]]].
Theorem C43_wrapped_into_blocks_refuted :
  (exists x lw, one_paragraph x /\ Forall clean_segment (segments x) /\ steady false x
     /\ reads (cm_lines (wrap_text uni_ascii x [] lw ++ [c_nl]))
          [Para [[lit "one"; lit "two"]]; SpecBlocks.List (BulletOf c_dash) [(None, [Para [[lit "three"]]])]])
  /\ (exists x lw, one_paragraph x /\ Forall clean_segment (segments x) /\ steady false x
     /\ reads (cm_lines (wrap_text uni_ascii x [] lw ++ [c_nl])) [Para [[lit "if"; lit "x"]]; Quote [Para [[lit "3"]]]])
  /\ (exists x lw, one_paragraph x /\ Forall clean_segment (segments x) /\ steady false x
     /\ reads (cm_lines (wrap_text uni_ascii x [] lw ++ [c_nl])) [Head 1 (lit "one two")])
  /\ (exists x lw, one_paragraph x /\ Forall clean_segment (segments x) /\ steady false x
     /\ reads (cm_lines (wrap_text uni_ascii x [] lw ++ [c_nl])) [Para [[lit "one"; lit "two"]]; Head 1 (lit "three")])
  /\ (exists x lw, one_paragraph x /\ Forall clean_segment (segments x) /\ steady false x
     /\ reads (cm_lines (wrap_text uni_ascii x [] lw ++ [c_nl]))
          [Para [[lit "chapter"]]; SpecBlocks.List (NumberOf (lit "1") c_dot) [(None, [Para [[lit "Begin"]]])]]).
Proof.
  assert (C : forall x, forallb clean_segmentb (segments x) = true -> Forall clean_segment (segments x)).
  { intros x H. apply forallb_all in H. eapply Forall_impl; [|exact H]. apply clean_segmentb_ok. }
  repeat split.
  - exists (lit "one two - three"), 8. wrapped_witness C.
  - exists (lit "if x > 3"), 5. wrapped_witness C.
  - exists (lit "one two ======="), 9. wrapped_witness C.
  - exists (lit "one two # three"), 8. wrapped_witness C.
  - exists (lit "chapter 1. Begin"), 8. wrapped_witness C.
Qed.
Print Assumptions C43_wrapped_into_blocks_refuted.
(** So the words of one paragraph are not always the words of one paragraph
    after wrapping. *)
Theorem C43_any_text_refuted : exists x lw, one_paragraph x
  /\ ~ reads (cm_lines (wrap_text uni_ascii x [] lw ++ [c_nl])) [Para [words x]].
Proof.
  destruct C43_wrapped_into_blocks_refuted as ((x & lw & A & _ & _ & B) & _). exists x, lw. split; [exact A|].
  eapply reads_other; [exact B|discriminate].
Qed.
Print Assumptions C43_any_text_refuted.

(** A no-break space standing alone is trimmed away with the line, and the
    paragraph becomes two. *)
Theorem C43_blank_word_refuted : exists x lw, Forall clean_segment (segments x)
  /\ reads (cm_lines (x ++ [c_nl])) [Para [[lit "one"; lit "two"]]]
  /\ reads (cm_lines (wrap_text uni_ascii x [] lw ++ [c_nl])) [Para [[lit "one"]]; Para [[lit "two"]]].
Proof.
  exists (lit "one " ++ [160%N] ++ lit " two"), 3. split; [|split].
  - repeat constructor; [intros r K; discriminate|]. intro K. inversion K; discriminate.
  - exists 9. vm_compute. reflexivity.
  - exists 9. vm_compute. reflexivity.
Qed.
Print Assumptions C43_blank_word_refuted.
