(** Whole documents of the kind of [SpecStructure]: blocks, and the sections
    of link definitions between them. *)
From Coq Require Import Bool Arith NArith Lia ZifyBool ZifyNat ZifyN String List Permutation.
From Verif Require Import Base BaseFacts WrapModel SpecWrap WrapProof OptsModel CodeModel HeadingModel TableModel AstModel StateModel InlineModel WarnModel SerModel
  SpecCode SpecHeading SpecRefs SpecBlocks SpecEnd SpecStructure SpecSpacing SpecState SpecContext SpecDoc StateProof SerFacts DecFacts DecRead PropsOrder EndProof CodeProof RefProof PropsRefs
  BlocksProof ParaProof NestProof LeafProof LeafTable PropsBlocks DocProof DocRun EndDoc StructShift StructProof StructList StructNote.
Import ListNotations.

(** ** What a block leaves alone *)
Definition tame (s : st) : Prop :=
  f_collecting (footnotes s) = false /\ forall k r, In (k, r) (pending_references s) -> definable r.
Definition mild (a : act) : Prop := forall s s', tame s -> a s = Ok s' ->
  tame s' /\ footnotes s' = footnotes s /\ skip s' = skip s /\ proper_nouns s' = proper_nouns s /\ common_nouns s' = common_nouns s
  /\ defs (trace s') = defs (trace s).
(** The same while the content of a footnote is collected. *)
Record still (s m : st) : Prop := {
  sl_pending : f_pending (footnotes m) = f_pending (footnotes s);
  sl_emitted : f_emitted (footnotes m) = f_emitted (footnotes s);
  sl_collecting : f_collecting (footnotes m) = true;
  sl_references : pending_references m = pending_references s;
  sl_skip : skip m = skip s;
  sl_proper : proper_nouns m = proper_nouns s;
  sl_common : common_nouns m = common_nouns s;
  sl_defs : defs (trace m) = defs (trace s);
  sl_note_refs : Forall (fun kv => definable (fst (snd kv))) (f_pending_references (footnotes s)) -> Forall (fun kv => definable (fst (snd kv))) (f_pending_references (footnotes m))
}.
Lemma still_refl : forall s, f_collecting (footnotes s) = true -> still s s.
Proof. intros s C. constructor; auto. Qed.
Lemma still_trans : forall a b c, still a b -> still b c -> still a c.
Proof. intros a b c [] []. constructor; auto; congruence. Qed.
Definition hushed (a : act) : Prop := forall s s', f_collecting (footnotes s) = true -> a s = Ok s' -> still s s'.
Definition gentle (a : act) : Prop := mild a /\ hushed a.
Lemma g_nop : gentle nop.
Proof. split; intros s s' T E; injection E as <-; [auto 10|apply still_refl; exact T]. Qed.
Lemma g_panic : gentle panic.
Proof. split; intros s s' T E; discriminate. Qed.
Lemma g_seq : forall a b, gentle a -> gentle b -> gentle (a ;; b).
Proof.
  intros a b [A A'] [Bb Bb']. split; intros s s' T E; apply seqa_ok in E; destruct E as (m & E1 & E2).
  - destruct (A _ _ T E1) as (T1 & P1 & P2 & P3 & P4 & P5). destruct (Bb _ _ T1 E2) as (T2 & Q1 & Q2 & Q3 & Q4 & Q5). split; [exact T2|]. repeat split; congruence.
  - pose proof (A' _ _ T E1) as S1. eapply still_trans; [exact S1|]. apply Bb'; [exact (sl_collecting _ _ S1)|exact E2].
Qed.
Lemma g_get : forall A (f : st -> A) k, (forall x, gentle (k x)) -> gentle (get f k).
Proof. intros A f k H. split; intros s s' T E; [exact (proj1 (H _) s s' T E)|exact (proj2 (H _) s s' T E)]. Qed.
Lemma g_emit : forall x, gentle (emit x).
Proof. intros x. split; intros s s' T E; injection E as <-; [auto 10|constructor; auto]. Qed.
Lemma g_warn : forall f, gentle (upd (fun s => set_warnings (f s) s)).
Proof. intros f. split; intros s s' T E; injection E as <-; [auto 10|constructor; auto]. Qed.
Lemma g_updc : forall f, gentle (updc f).
Proof. intros f. split; intros s s' T E; injection E as <-; [auto 10|constructor; auto]. Qed.
Lemma g_code : forall f, gentle (code_act f).
Proof.
  intros f. split; intros s s' T E; unfold code_act, get in E; destruct (f _) as [text eff]; apply seqa_ok in E; destruct E as (m & E1 & E);
    apply seqa_ok in E; destruct E as (m2 & E2 & E3); injection E1 as <-; injection E2 as <-; injection E3 as <-.
  - split; [exact T|]. repeat (split; [reflexivity|]). cbn. rewrite defs_app. apply app_nil_r.
  - constructor; auto. cbn. rewrite defs_app. apply app_nil_r.
Qed.
Lemma g_all : forall l, Forall gentle l -> gentle (all l).
Proof.
  intros l F. induction F as [|a l H F IH]; [apply g_nop|]. pose proof (g_seq a (all l) H IH) as [G1 G2].
  split; intros s s' T E; rewrite all_cons in E; [exact (G1 s s' T E)|exact (G2 s s' T E)].
Qed.
Lemma g_events : forall evs, definable_uses evs -> gentle (all (map do_event evs)).
Proof.
  intros evs D. apply g_all. apply Forall_map. apply Forall_forall. intros e I. split; intros s s' T E.
  - destruct T as [Tc Td]. destruct e as [r|x].
    + cbn [do_event] in E. unfold add_reference in E. injection E as <-. cbv zeta. rewrite Tc. split; [|repeat (split; [reflexivity|]); cbn; rewrite defs_app; apply app_nil_r]. split; [exact Tc|].
      cbn. intros k r' In'. apply imap_insert_in in In'. destruct In' as [Q|In']; [|eapply Td; exact In'].
      injection Q as -> ->. apply D. exact I.
    + injection E as <-. split; [split; assumption|]. repeat (split; [reflexivity|]). cbn. rewrite defs_app. apply app_nil_r.
  - destruct e as [r|x]; injection E as <-; [|constructor; auto; cbn; rewrite defs_app; apply app_nil_r]. cbv zeta. rewrite T.
    constructor; try reflexivity; [cbn; rewrite defs_app; apply app_nil_r|]. cbn. intro F.
    apply (insert_all _ (fun v : reference * nat => definable (fst v))); [|exact F]. apply D. exact I.
Qed.
Lemma g_inline : forall w k, (forall x evs, w = Ok (x, evs) -> definable_uses evs) -> (forall x, gentle (k x)) -> gentle (inline w k).
Proof.
  intros w k D K. unfold inline. destruct w as [[x evs]|]; [|apply g_panic]. apply g_seq; [apply g_events; eapply D; reflexivity|apply K].
Qed.
(** ** Lines of link definitions *)
Definition def_of (r : reference) : str :=
  [c_lbr] ++ SpecRefs.spaced (ref_label r) ++ [c_rbr; c_colon; c_sp] ++ ref_url r
  ++ match ref_title r with [] => [] | t => [c_sp; c_dq] ++ t ++ [c_dq] end.
Lemma def_line : forall r, reference_text r = def_of r ++ [c_nl].
Proof.
  intro r. rewrite reference_text_line. unfold definition_line, def_of. fold (SpecRefs.spaced (ref_label r)). rewrite <- !app_assoc.
  reflexivity.
Qed.
Lemma def_chars : forall r, definable r -> Forall line_char (def_of r).
Proof.
  intros r []. unfold def_of. repeat (apply Forall_app; split).
  - repeat constructor; discriminate.
  - destruct df_line as [F _]. unfold SpecRefs.spaced. apply Forall_map. eapply Forall_impl; [|exact F]. intros c [N1 N2].
    destruct (N.eqb c 0); split; try assumption; discriminate.
  - repeat constructor; discriminate.
  - destruct df_url as (_ & _ & F). eapply Forall_impl; [|exact F]. intros c (G & _). unfold line_char, c_nl, c_cr in *. split; intro Q; subst; clear - G; lia.
  - destruct df_line as [_ F]. destruct (ref_title r) as [|c t]; [constructor|]. apply Forall_app. split; [repeat constructor; discriminate|].
    apply Forall_app. split; [exact F|repeat constructor; discriminate].
Qed.
Lemma def_shape : forall r, exists t, def_of r = c_lbr :: t.
Proof. intro r. eexists. reflexivity. Qed.
Lemma def_read : forall r, definable r -> read_definition (def_of r ++ [c_nl]) = Some (SpecRefs.spaced (ref_label r), ref_url r, ref_title r).
Proof.
  intros r []. destruct df_url as (U1 & U2 & U3). rewrite <- def_line, reference_text_line. apply C25_definition_read; assumption.
Qed.
Lemma def_note : forall r, definable r -> note_line (def_of r) = false.
Proof.
  intros r D. pose proof (df_caret _ D) as C. unfold note_line, def_of. cbn [app]. destruct (SpecRefs.spaced (ref_label r)) as [|c l] eqn:E.
  - exfalso. destruct (df_dark _ D) as (c & I & _). unfold SpecRefs.spaced in E. destruct (ref_label r); [destruct I|discriminate].
  - cbn [hd_error] in C. cbn [app]. destruct (starts_with _ _) eqn:K; [|reflexivity]. exfalso. apply starts_with_true in K.
    destruct K as [z K]. change (lit "[^") with [c_lbr; c_caret] in K. injection K as K _. apply C. f_equal. exact K.
Qed.
Definition define_of (r : reference) : block := Define (SpecRefs.spaced (ref_label r)) (ref_url r) (ref_title r).
Lemma reads_defs : forall rs rest bs, Forall definable rs -> blank_next rest -> onward rest bs -> onward (map def_of rs ++ rest) (map define_of rs ++ bs).
Proof.
  intros rs rest bs F Bn On. induction F as [|r rs D F IH]; [exact On|]. cbn [map app]. destruct IH as [R C I].
  destruct (def_shape r) as [t E]. pose proof (def_note r D) as Nt. pose proof (def_read r D) as Rd. rewrite E in *. constructor.
  - destruct R as [n R]. apply reads_step. exists n. cbn [read_step].
    change (is_blank (c_lbr :: t)) with false. change (margin (c_lbr :: t)) with (Some (c_lbr :: t)). change (opening_fence (c_lbr :: t)) with (@None (char * nat * nat * str)).
    change (is_rule (c_lbr :: t)) with false. change (read_atx (c_lbr :: t)) with (@None (nat * str)). change (starts_quote (c_lbr :: t)) with false.
    change (marker_of (c_lbr :: t)) with (@None (marker * str)). cbn [is_some]. unfold strange. rewrite Nt, (note_head_line _ Nt). change (html_line (c_lbr :: t)) with false.
    change (details_line (c_lbr :: t)) with false. cbn [orb]. rewrite Rd. unfold read_definitions.
    destruct rs as [|r' rs].
    + cbn [map app] in *. destruct rest as [|l rest]; [|cbn in Bn; rewrite Bn, R; reflexivity]. destruct n; [discriminate|]. injection R as <-. reflexivity.
    + cbn [map app] in *. destruct (def_shape r') as [t' E']. rewrite E' in *. rewrite orb_true_r, R. reflexivity.
  - split; [reflexivity|]. split; [cbn; lia|reflexivity].
  - intros m Q. discriminate Q.
Qed.

Ltac gt := repeat match goal with
  | |- gentle nop => apply g_nop
  | |- gentle panic => apply g_panic
  | |- gentle (emit _) => apply g_emit
  | |- gentle (updc _) => apply g_updc
  | |- gentle (code_act _) => apply g_code
  | |- gentle (_ ;; _) => apply g_seq
  | |- gentle (get _ _) => apply g_get; intro
  | |- gentle (match ?x with _ => _ end) => destruct x
  end.

Section Doc.
Variable U : Uni.
Variable PN : list (str * str).
Variable ENT : str -> option str.
Variable o : Options.
Variable B : backend.
Variable src : list str.
Variable ends_nl : bool.
Variable checks : bool.
Hypothesis cols : four_columns o.
Notation ser := (serialize U PN ENT o B src ends_nl checks).
Notation good := (SpecStructure.good U PN ENT o B src).
Notation good_item := (SpecStructure.good_item U PN ENT o B src).
Notation same := (SpecStructure.same U PN ENT o B src).

Lemma kids_gentle : forall cs, Forall (fun c => forall next, gentle (ser next c)) cs -> Forall (fun na => gentle (snd na)) (combine cs (with_next ser cs)).
Proof. intros cs F. induction F as [|c cs H F IH]; [constructor|]. cbn [with_next combine]. constructor; [apply H|exact IH]. Qed.
Lemma g_children : forall k, Forall (fun na : node * act => gentle (snd na)) k -> gentle (children_acts k).
Proof. intros k F. apply g_all. apply Forall_map. exact F. Qed.
Lemma g_quote_children : forall k indent prefix first, Forall (fun na : node * act => gentle (snd na)) k -> gentle (blockquote_children indent prefix first k).
Proof. intros k indent prefix first F. revert first. induction F as [|[c a] k H F IH]; intro first; cbn [blockquote_children]; gt; [exact H|apply IH]. Qed.
Lemma g_block_quote : forall k, Forall (fun na : node * act => gentle (snd na)) k -> gentle (block_quote k).
Proof. intros k F. unfold block_quote. gt. apply g_quote_children. exact F. Qed.
Lemma g_item_children : forall k base prev, Forall (fun na : node * act => gentle (snd na)) k -> gentle (item_children o B base prev k).
Proof.
  intros k base prev F. revert prev. induction F as [|[c a] k H F IH]; intro prev; cbn [item_children]; [apply g_nop|].
  apply g_seq; [|apply IH]. cbn [snd] in H. destruct (node_value c); gt; exact H.
Qed.
Lemma para_gentle : forall p q cs next, good p (Node NParagraph q cs) -> gentle (ser next (Node NParagraph q cs)).
Proof.
  intros p q cs next G. inversion G as [? ? ? ? ? x evs Un Ic Df Sf Ua| | | | | | | | |]; subst. cbn [serialize]. cbv zeta.
  unfold paragraph. gt. apply g_inline; [intros x' evs' Q; rewrite Ic in Q; injection Q as <- <-; exact Df|intro y; gt].
Qed.
(** Description lists; a quote in details has only paragraphs and rules. *)
Lemma detail_gentle : forall c next, good (At 0 0 1) c -> SpecStructure.detail_fits o B c -> gentle (ser next c).
Proof.
  intros c next G Ft.
  assert (K : forall cs, Forall (good (At 1 1 0)) cs -> Forall (fun na => gentle (snd na)) (combine cs (with_next ser cs))).
  { intros cs F. apply kids_gentle. eapply Forall_impl; [|exact F]. intros c' G' nx. inversion G'; subst; [eapply para_gentle; exact G'|].
    cbn [serialize]. unfold thematic_break. gt. }
  inversion G as [? ? ? q cs x evs| |? ? info literal q cs Kd Sv| |? ? q cs Kd Nc A F|? ? a q cs Kd A F|? ? kind tight q cs Kd Nc| | |]; subst; cbn [serialize]; cbv zeta.
  - eapply (para_gentle _ _ _ next). exact G.
  - gt.
  - apply g_block_quote. apply K. exact F.
  - unfold alert. apply g_get. intro c. apply g_seq; [apply g_emit|]. apply g_seq; [gt|]. apply g_block_quote. apply K. exact F.
  - destruct Ft.
Qed.
Lemma g_details_paragraph : forall w q cs quote mark, good w (Node NParagraph q cs) -> gentle (details_paragraph U ENT o src quote mark (Node NParagraph q cs)).
Proof.
  intros w q cs quote mark G. inversion G as [? ? ? ? ? x evs Un Ic Df Sf Ua| | | | | | | | |]; subst. unfold details_paragraph. gt.
  apply g_inline; [intros x' evs' Q; rewrite Ic in Q; injection Q as <- <-; exact Df|intro y; gt].
Qed.
Lemma details_gentle : forall cs quote first, Forall (good (At 0 0 1)) cs -> Forall (SpecStructure.detail_fits o B) cs ->
  gentle (details_children U ENT o B src quote first (combine cs (with_next ser cs))).
Proof.
  intros cs quote first F H. revert first. induction F as [|c cs G F IH]; intro first; [apply g_nop|]. inversion H as [|? ? Hc H']; subst.
  cbn [with_next combine details_children]. apply g_seq; [|apply IH; exact H'].
  pose proof (detail_gentle c (hd_error cs) G Hc) as Gc.
  inversion G; subst; cbn [node_value] in *; try contradiction Hc; unfold with_item_indent; destruct first; gt; try exact Gc; eapply g_details_paragraph; exact G.
Qed.
Lemma entry_gentle : forall k n next, SpecStructure.good_entry U PN ENT o B src k n -> gentle (ser next n).
Proof.
  intros k n next G. inversion G as [? p q r t ts u us ds Gt Gu Nd Fd Gd]; subst. cbn [serialize combine with_next children_acts]. cbv zeta. apply g_children.
  constructor; [|constructor; [|constructor]].
  - cbn [snd]. apply g_children. constructor; [|constructor]. cbn [snd]. exact (para_gentle _ _ _ None Gt).
  - cbn [snd]. unfold description_details. apply g_get. intro c. apply g_seq; [apply g_updc|]. apply g_seq; [|apply g_updc].
    cbn [combine with_next details_children node_value]. apply g_seq; [eapply g_details_paragraph; exact Gu|]. apply details_gentle; assumption.
Qed.
Lemma g_description_list : forall k first, Forall (fun na : node * act => gentle (snd na)) k -> gentle (description_list first k).
Proof. intros k first F. revert first. induction F as [|[c a] k H F IH]; intro first; cbn [description_list]; gt; try exact H; apply IH. Qed.
Lemma good_gentle : forall n, (forall p next, good p n -> gentle (ser next n)) /\ (forall p next, good_item p n -> gentle (ser next n)).
Proof.
  induction n as [v q cs IH] using node_ind'.
  assert (K : forall p, Forall (good p) cs -> Forall (fun na => gentle (snd na)) (combine cs (with_next ser cs))).
  { intros p F. apply kids_gentle. clear - IH F. induction F as [|c cs G F IHF]; inversion IH as [|? ? [Hc _] IH']; subst; constructor; auto.
    intro next. eapply Hc. exact G. }
  assert (KI : forall p, Forall (good_item p) cs -> Forall (fun na => gentle (snd na)) (combine cs (with_next ser cs))).
  { intros p F. apply kids_gentle. clear - IH F. induction F as [|c cs G F IHF]; inversion IH as [|? ? [_ Hc] IH']; subst; constructor; auto.
    intro next. eapply Hc. exact G. }
  split; intros p next G.
  - inversion G as [? ? ? ? ? x evs Un Ic Df Sf Ua|? ? ? t evs Ct Du Hl|k d ? ? ? ? Kd Cs|? ? ? ? Kk Rs|k d ? ? Kk N A F|k d ? ? ? Kk A F|k d ? ? ? ? Kk N L T F|k ? ? ? Kk Na Nr Gr|? ? ? Hh Nd|? ? ? Nc Ge]; subst; cbn [serialize]; cbv zeta.
    + unfold paragraph. gt. apply g_inline; [intros x' evs' Q; rewrite Ic in Q; injection Q as <- <-; exact Df|intro y; gt].
    + unfold heading. apply g_inline; [intros x' evs' Q; rewrite Ct in Q; injection Q as <- <-; exact Du|intro y; gt].
    + gt.
    + unfold thematic_break. gt.
    + apply g_block_quote. eapply K. exact F.
    + unfold alert. apply g_get. intro c. apply g_seq; [apply g_emit|]. apply g_seq; [gt|]. apply g_block_quote. eapply K. exact F.
    + unfold list_block. gt. apply g_children. eapply KI. exact F.
    + unfold table. destruct (is_nil cs); [apply g_nop|]. apply g_seq; [apply g_warn|].
      destruct (table_rows U ENT o src cs) as [[cells evs]|] eqn:Et; [|apply g_panic].
      destruct (rows_collected U ENT o src _ _ _ _ Gr Et) as (_ & _ & _ & _ & Du). apply g_seq; [apply g_events; exact Du|gt].
    + apply g_emit.
    + apply g_description_list. apply kids_gentle. eapply Forall_impl; [|exact Ge]. intros c Gc nx. eapply entry_gentle. exact Gc.
  - inversion G as [|k d v' ? q' ics cs' Hv Kc A J Gp F]; subst; cbn [serialize]; cbv zeta.
    + unfold list_item. gt. apply g_item_children. constructor.
    + assert (Q : Forall (fun na => gentle (snd na)) (combine (Node NParagraph q' ics :: cs') (with_next ser (Node NParagraph q' ics :: cs')))).
      { eapply K. constructor; eassumption. }
      destruct Hv as [[-> _]|[symbol ->]]; unfold list_item; gt; apply g_item_children; exact Q.
Qed.

(** ** Sections: footnotes and link definitions *)
Notation good_note := (SpecStructure.good_note U PN ENT o B src).
Notation same_note := (SpecStructure.same_note U PN ENT o B src).
(** What is remembered of a footnote. *)
Definition held (n : node) (kv : str * footnote) : Prop :=
  fst kv = fn_name (snd kv) /\ forall t, footnote_text U o checks (snd kv) = Ok t ->
  exists ls b, t = text_of ls /\ Forall (Forall line_char) ls /\ last ls [] <> [] /\ block_lines ls b /\ same_note n b /\ (exists name bs, b = Foot name bs)
    /\ begins_note (hd [] ls) = true.
Record ready (s : st) (open : list node) : Prop := {
  rd_tame : tame s;
  rd_notes : Forall2 held open (f_pending (footnotes s));
  rd_names : NoDup (map fst (f_pending (footnotes s)));
  rd_fresh : Forall (fun kv => ~ In (fst kv) (f_emitted (footnotes s))) (f_pending (footnotes s));
  rd_note_refs : Forall (fun kv => definable (fst (snd kv))) (f_pending_references (footnotes s));
  rd_skip : skip s = SkipNone;
  rd_proper : proper_nouns s = [];
  rd_common : common_nouns s = []
}.
Definition ended (out : str) : Prop := exists x c, out = x ++ [c; c_nl] /\ c <> c_nl.
(** Blank lines written before a section are needed after blocks; at the
    beginning of the output they are written as well. *)
Definition opens (out : str) : Prop := ended out \/ out = [].
Definition blanks_before (out : str) : nat := if ends_with [c_nl; c_nl] out then 0 else if ends_with [c_nl] out then 1 else 2.
Lemma text_of_blanks : forall n, text_of (repeat [] n) = repc c_nl n.
Proof. induction n as [|n IH]; [reflexivity|]. cbn [repeat]. rewrite text_of_cons. cbn [app]. rewrite IH. reflexivity. Qed.
Lemma blanks_before_eq : forall out, blank_before out = text_of (repeat [] (blanks_before out)).
Proof. intro out. rewrite text_of_blanks. unfold blank_before, blanks_before. destruct (ends_with [c_nl; c_nl] out); [reflexivity|]. destruct (ends_with [c_nl] out); reflexivity. Qed.
Lemma opens_blank : forall out, opens out -> 1 <= blanks_before out.
Proof.
  intros out [(x & c & -> & N)| ->]; [|cbn; lia]. unfold blanks_before. destruct (ends_with [c_nl; c_nl] (x ++ [c; c_nl])) eqn:E; [|destruct (ends_with [c_nl] (x ++ [c; c_nl])); cbn; lia].
  exfalso. apply ends_with_true in E. destruct E as [y E]. apply (f_equal (@rev char)) in E. rewrite !rev_app_distr in E. injection E as E _. auto.
Qed.
Lemma ended_one : forall out, ended out -> blanks_before out = 1.
Proof.
  intros out (x & c & -> & N). unfold blanks_before. destruct (ends_with [c_nl; c_nl] (x ++ [c; c_nl])) eqn:E.
  - exfalso. apply ends_with_true in E. destruct E as [y E]. apply (f_equal (@rev char)) in E. rewrite !rev_app_distr in E. injection E as E _. auto.
  - replace (ends_with [c_nl] (x ++ [c; c_nl])) with true; [reflexivity|]. symmetry. apply ends_with_true. exists (x ++ [c]). rewrite <- app_assoc. reflexivity.
Qed.
Lemma ended_lines : forall out ls, Forall (Forall line_char) ls -> last ls [] <> [] -> ended (out ++ text_of ls).
Proof.
  intros out ls F L. destruct (exists_last (l := ls)) as (a & z & ->); [intros ->; apply L; reflexivity|]. rewrite last_last in L.
  destruct (exists_last L) as (y & c & ->). apply Forall_app in F. destruct F as [_ F]. apply Forall_inv in F. apply Forall_app in F. destruct F as [_ F].
  apply Forall_inv in F. exists (out ++ text_of a ++ y), c. split; [|apply F]. rewrite text_of_app. unfold text_of at 2. cbn [flat_map].
  rewrite app_nil_r, <- !app_assoc. reflexivity.
Qed.
Lemma blank_repeat : forall n, Forall (fun l => is_blank l = true) (repeat (@nil char) n).
Proof. intro n. apply Forall_forall. intros x I. apply repeat_spec in I. subst x. reflexivity. Qed.
Lemma chars_repeat : forall n, Forall (Forall line_char) (repeat (@nil char) n).
Proof. intro n. apply Forall_forall. intros x I. apply repeat_spec in I. subst x. constructor. Qed.

Definition main_blocks (bs : list block) : list block := filter is_main bs.
Definition foot_blocks (bs : list block) : list block := filter is_foot bs.
Definition def_blocks (bs : list block) : list block := filter is_definition bs.
Lemma feet_only : forall ns feet, Forall2 same_note ns feet -> main_blocks feet = [] /\ foot_blocks feet = feet /\ def_blocks feet = [].
Proof.
  intros ns feet F. induction F as [|n b ns feet H F (I1 & I2 & I3)]; [repeat split; reflexivity|]. inversion H; subst.
  unfold main_blocks, foot_blocks, def_blocks in *. cbn [filter is_foot is_definition is_main negb orb]. rewrite I1, I2, I3. repeat split; reflexivity.
Qed.
Lemma main_only : forall d cs bs, Forall2 (same d) cs bs -> main_blocks bs = bs /\ foot_blocks bs = [] /\ def_blocks bs = [].
Proof.
  intros d cs bs F. induction F as [|n b ns feet H F (I1 & I2 & I3)]; [repeat split; reflexivity|]. unfold main_blocks, foot_blocks, def_blocks in *. cbn [filter]. rewrite I1, I2, I3.
  destruct b; inversion H; repeat split; reflexivity.
Qed.
Lemma defs_only : forall rs, main_blocks (map define_of rs) = [] /\ foot_blocks (map define_of rs) = [] /\ def_blocks (map define_of rs) = map define_of rs.
Proof.
  induction rs as [|r rs (I1 & I2 & I3)]; [repeat split; reflexivity|]. unfold main_blocks, foot_blocks, def_blocks in *. cbn [map filter define_of is_foot is_definition is_main negb orb].
  rewrite I1, I2, I3. repeat split; reflexivity.
Qed.
Lemma main_app : forall a b, main_blocks (a ++ b) = main_blocks a ++ main_blocks b.
Proof. intros a b. apply filter_app. Qed.
Lemma foot_app : forall a b, foot_blocks (a ++ b) = foot_blocks a ++ foot_blocks b.
Proof. intros a b. apply filter_app. Qed.
Lemma def_app : forall a b, def_blocks (a ++ b) = def_blocks a ++ def_blocks b.
Proof. intros a b. apply filter_app. Qed.
(** Between two states the lines [ls] are written, which are read as [fs]: the
    footnotes [ns] and the definitions [ds]. After a block they are the groups
    [gs] set apart. *)
Definition stage (s s' : st) (ns : list node) (gs : list (list str)) : Prop :=
  cx s' = cx s /\ exists ls fs ds, output s' = output s ++ text_of ls /\ Forall (Forall line_char) ls
    /\ (defs (trace s') = defs (trace s) ++ ds /\ main_blocks fs = [] /\ Forall2 same_note ns (foot_blocks fs) /\ def_blocks fs = map define_of ds)
    /\ (forall rest bs, ls = [] \/ blank_next rest -> onward rest bs -> onward (ls ++ rest) (fs ++ bs))
    /\ (opens (output s) -> forall rest, blank_next rest -> blank_next (ls ++ rest))
    /\ (ls = [] \/ ended (output s'))
    /\ (ended (output s) -> ls = set_apart gs).
Lemma stage_refl : forall s s', cx s' = cx s -> output s' = output s -> defs (trace s') = defs (trace s) -> stage s s' [] [].
Proof.
  intros s s' C O T. split; [exact C|]. exists [], [], []. split; [rewrite O; symmetry; apply app_nil_r|]. split; [constructor|].
  split; [split; [rewrite T; symmetry; apply app_nil_r|split; [reflexivity|split; [constructor|reflexivity]]]|].
  split; [intros rest bs _ H; exact H|]. split; [intros _ rest H; exact H|split; [left; reflexivity|intros _; reflexivity]].
Qed.
Lemma stage_trans : forall s m s' n1 n2 g1 g2, stage s m n1 g1 -> stage m s' n2 g2 -> stage s s' (n1 ++ n2) (g1 ++ g2).
Proof.
  intros s m s' n1 n2 g1 g2 (C1 & l1 & f1 & d1 & O1 & H1 & (T1 & M1 & S1 & D1) & R1 & B1 & E1 & A1) (C2 & l2 & f2 & d2 & O2 & H2 & (T2 & M2 & S2 & D2) & R2 & B2 & E2 & A2).
  split; [congruence|]. exists (l1 ++ l2), (f1 ++ f2), (d1 ++ d2). split; [rewrite O2, O1, text_of_app, <- app_assoc; reflexivity|].
  split; [apply Forall_app; auto|]. split.
  { split; [rewrite T2, T1, <- app_assoc; reflexivity|]. split; [rewrite main_app, M1, M2; reflexivity|]. split; [rewrite foot_app; apply Forall2_app; assumption|].
    rewrite def_app, D1, D2, map_app. reflexivity. }
  split; [|split; [|split]].
  - intros rest bs Q On. rewrite <- !app_assoc. destruct l1 as [|x l1].
    + apply R1; [left; reflexivity|]. apply R2; [exact Q|exact On].
    + destruct Q as [Q|Q]; [discriminate|]. destruct E1 as [E1|E1]; [discriminate|].
      apply R1; [right; apply B2; [left; exact E1|exact Q]|]. apply R2; [right; exact Q|exact On].
  - intros Op rest Q. rewrite <- app_assoc. apply B1; [exact Op|]. apply B2; [|exact Q]. destruct E1 as [->|E1]; [|left; exact E1].
    rewrite O1. cbn [text_of flat_map]. rewrite app_nil_r. exact Op.
  - destruct E2 as [->|E2]; [|right; exact E2]. rewrite app_nil_r. destruct E1 as [E1|E1]; [left; exact E1|]. right.
    rewrite O2. cbn [text_of flat_map]. rewrite app_nil_r. exact E1.
  - intro Op. transitivity (set_apart g1 ++ set_apart g2); [|symmetry; apply flat_map_app]. f_equal; [exact (A1 Op)|]. apply A2. destruct E1 as [->|E1]; [|exact E1].
    rewrite O1. cbn [text_of flat_map]. rewrite app_nil_r. exact Op.
Qed.
Lemma defs_text : forall rs, flat_map reference_text rs = text_of (map def_of rs).
Proof. intro l. induction l as [|x l IH]; [reflexivity|]. cbn [flat_map map]. rewrite text_of_cons, IH, def_line, <- app_assoc. reflexivity. Qed.
Lemma defs_stage : forall s s' rs, cx s' = cx s -> Forall definable rs ->
  output s' = output s ++ section_text (output s) (flat_map reference_text rs) (is_nil rs) -> trace s' = trace s ++ map Def rs ->
  exists gs, stage s s' [] gs /\ at_most_one (only is_definition) gs.
Proof.
  intros s s' rs C Df O T. apply (f_equal defs) in T. rewrite defs_app, defs_defs in T.
  destruct rs as [|r rs]; [exists []; split; [apply stage_refl; [exact C|rewrite O; apply app_nil_r|rewrite T; apply app_nil_r]|left; reflexivity]|].
  set (l := r :: rs) in *. assert (N : map def_of l <> []) by discriminate. replace (is_nil l) with false in O by reflexivity. unfold section_text in O. rewrite blanks_before_eq, defs_text, <- text_of_app in O.
  clearbody l. exists [map def_of l]. split.
  2:{ right. eexists. split; [reflexivity|]. split.
    - split.
      + destruct l as [|x l]; [exfalso; apply N; reflexivity|]. destruct (def_shape x) as [t Ex]. exists (def_of x), (map def_of l). split; [reflexivity|]. rewrite Ex. reflexivity.
      + destruct (exists_last N) as (a & z & E). rewrite E, last_last. assert (I : In z (map def_of l)) by (rewrite E; apply in_or_app; right; left; reflexivity).
        apply in_map_iff in I. destruct I as (x & <- & _). discriminate.
    - exists (map define_of l). pose proof (reads_defs l [] [] Df Logic.I onward_nil) as On. rewrite !app_nil_r in On. split; [exact (on_reads _ _ On)|].
      split; [destruct l; [exfalso; apply N; reflexivity|discriminate]|]. apply Forall_map. apply Forall_forall. reflexivity. }
  split; [exact C|]. exists (repeat [] (blanks_before (output s)) ++ map def_of l), (map define_of l), l. split; [exact O|].
  assert (Ch : Forall (Forall line_char) (map def_of l)) by (apply Forall_map; eapply Forall_impl; [|exact Df]; apply def_chars).
  split; [apply Forall_app; split; [apply chars_repeat|exact Ch]|].
  destruct (defs_only l) as (Z1 & Z2 & Z3). split; [split; [exact T|split; [exact Z1|split; [rewrite Z2; constructor|exact Z3]]]|]. split; [|split; [|split]].
  - intros rest bs [Q|Q] On; [apply app_eq_nil in Q; tauto|]. rewrite <- app_assoc. apply onward_blanks; [apply blank_repeat|]. apply reads_defs; assumption.
  - intros Op rest _. apply opens_blank in Op. destruct (blanks_before (output s)); [lia|reflexivity].
  - right. rewrite O. apply ended_lines; [apply Forall_app; split; [apply chars_repeat|exact Ch]|].
    destruct (exists_last N) as (a & z & E). rewrite E, app_assoc, last_last. assert (I : In z (map def_of l)) by (rewrite E; apply in_or_app; right; left; reflexivity).
    apply in_map_iff in I. destruct I as (x & <- & _). discriminate.
  - intro Op. rewrite (ended_one _ Op). cbn. rewrite app_nil_r. reflexivity.
Qed.

(** ** Flushing *)
Lemma notes_lines : forall ns fs texts, Forall2 held ns fs -> Forall2 (fun f t => footnote_text U o checks f = Ok t) (map snd fs) texts -> ns <> [] ->
  exists ls feet, List.concat texts = text_of ls /\ Forall (Forall line_char) ls /\ last ls [] <> [] /\ Forall2 same_note ns feet
    /\ (forall rest bs, blank_next rest -> onward rest bs -> onward (ls ++ rest) (feet ++ bs))
    /\ exists l r, ls = l :: r /\ shallow l /\ begins_note l = true.
Proof.
  intros ns fs texts F. revert texts. induction F as [|n f ns fs H F IH]; intros texts T N; [congruence|]. cbn [map] in T. inversion T as [|? t ? texts' E T']; subst.
  destruct (proj2 H t E) as (ls & b & -> & Ch & La & Bk & Sm & (name & bsf & Eb) & Bn). pose proof Bk as ((l0 & r0 & El & Sh & Hh) & _). rewrite El in Bn. cbn [hd] in Bn.
  destruct ns as [|n' ns].
  - inversion F; subst. inversion T'; subst. exists (l0 :: r0), [Foot name bsf]. cbn [List.concat]. rewrite app_nil_r.
    split; [reflexivity|]. split; [exact Ch|]. split; [exact La|]. split; [constructor; [exact Sm|constructor]|]. split; [|eauto].
    intros rest bs Bl On. apply (onward_block _ (Foot name bsf)); [exact Bk| |apply (on_reads _ _ On)]. cbn [follows]. destruct rest as [|x rest]; [exact Logic.I|].
    left. split; [exact Bl|apply (on_calm _ _ On)].
  - destruct (IH texts' T' ltac:(discriminate)) as (ls' & feet & Et & Ch' & La' & Sm' & Rd & l1 & r1 & El1 & Sh1 & Bn1).
    exists (ls ++ ls'), (b :: feet). cbn [List.concat]. rewrite Et, text_of_app. split; [reflexivity|]. split; [apply Forall_app; auto|]. split.
    { assert (Ne : ls' <> []) by (rewrite El1; discriminate). destruct (exists_last Ne) as (a & z & Ez). rewrite Ez in *. rewrite app_assoc, last_last in *. exact La'. }
    split; [constructor; assumption|]. split.
    + intros rest bs Bl On. rewrite <- app_assoc. specialize (Rd rest bs Bl On). cbn [app]. apply onward_block; [exact Bk| |apply (on_reads _ _ Rd)].
      rewrite Eb. cbn [follows]. rewrite El1. cbn [app]. right. split; assumption.
    + rewrite El. eexists. eexists. split; [reflexivity|]. split; assumption.
Qed.
Lemma mem_false : forall k l, ~ In k l -> mem k l = false.
Proof.
  intros k l N. unfold mem. apply not_true_iff_false. intro H. apply existsb_exists in H. destruct H as (x & I & E). apply seqb_true in E. subst x. contradiction.
Qed.
Lemma filter_split : forall (p : str * footnote -> bool) open kvs, Forall2 held open kvs ->
  exists ns ks, Forall2 held ns (filter p kvs) /\ Forall2 held ks (filter (fun kv => negb (p kv)) kvs) /\ Permutation open (ns ++ ks).
Proof.
  intros p open kvs F. induction F as [|n kv open kvs H F (ns & ks & F1 & F2 & P)]; [exists [], []; repeat split; constructor|].
  cbn [filter]. destruct (p kv); cbn [negb].
  - exists (n :: ns), ks. split; [constructor; assumption|]. split; [exact F2|]. cbn [app]. constructor. exact P.
  - exists ns, (n :: ks). split; [exact F1|]. split; [constructor; assumption|]. apply Permutation_cons_app. exact P.
Qed.
Lemma forall2_perm : forall A C (R : A -> C -> Prop) l l1 l2, Forall2 R l l1 -> Permutation l1 l2 -> exists l', Permutation l l' /\ Forall2 R l' l2.
Proof.
  intros A C R l l1 l2 F P. revert l F. induction P as [|x a b P IH|x y a|a b c P1 IH1 P2 IH2]; intros l F.
  - inversion F; subst. exists []. auto.
  - inversion F as [|z ? m ? Rz F']; subst. destruct (IH _ F') as (m' & P' & F2). exists (z :: m'). split; [constructor; exact P'|constructor; assumption].
  - inversion F as [|z1 ? m ? R1 F']; subst. inversion F' as [|z2 ? m' ? R2 F2]; subst. exists (z2 :: z1 :: m'). split; [constructor|constructor; [assumption|constructor; assumption]].
  - destruct (IH1 _ F) as (m & Pm & Fm). destruct (IH2 _ Fm) as (m' & Pm' & Fm'). exists m'. split; [eapply Permutation_trans; eassumption|exact Fm'].
Qed.
Lemma nodup_filter : forall (p : str * footnote -> bool) kvs, NoDup (map fst kvs) -> NoDup (map fst (filter p kvs)).
Proof.
  intros p kvs. induction kvs as [|kv kvs IH]; intro N; [constructor|]. cbn [map filter] in *. inversion N as [|? ? N1 N2]; subst. destruct (p kv); [|apply IH; exact N2].
  cbn [map]. constructor; [|apply IH; exact N2]. intro I. apply N1. apply in_map_iff in I. destruct I as (x & E & I). apply filter_In in I. apply in_map_iff. exists x. tauto.
Qed.
Lemma flush_notes_stage : forall before s s' open, ready s open -> flush_footnotes_before U o checks before s = Ok s' ->
  exists ns open' gs, stage s s' ns gs /\ at_most_one (only is_foot) gs /\ ready s' open' /\ Permutation open (ns ++ open') /\ (before = None -> open' = []).
Proof.
  intros before s s' open [[Tc Td] Nt Nm Fr Nr Sk P1 P2] E.
  destruct (flush_footnotes_ok U o checks before s s' E) as (texts & Tx & O & Tr & C & Pr & _ & Fp & _ & Fc & _ & Fpr & Sk' & _ & P1' & P2' & _ & Em).
  assert (Td' : defs (trace s') = defs (trace s)).
  { rewrite Tr, defs_app. replace (defs (map Footnote _)) with (@nil reference); [apply app_nil_r|]. clear. induction (footnote_order (due_footnotes before s)) as [|f l IH]; [reflexivity|exact IH]. }
  assert (Live : live_footnotes s = f_pending (footnotes s)).
  { unfold live_footnotes. clear - Fr. induction Fr as [|kv l H Fr IH]; [reflexivity|]. cbn [filter]. rewrite (mem_false _ _ H). cbn [negb]. rewrite IH. reflexivity. }
  destruct (filter_split (fun kv => due before (fn_reference_line (snd kv))) open _ Nt) as (ns & ks & F1 & F2 & Pm).
  unfold due_footnotes, kept_footnotes in *. rewrite Live in *.
  set (go := filter (fun kv => due before (fn_reference_line (snd kv))) (f_pending (footnotes s))) in *.
  set (keep := filter (fun kv : str * footnote => negb (due before (fn_reference_line (snd kv)))) (f_pending (footnotes s))) in *.
  assert (Kn : NoDup (map fst keep)) by (apply nodup_filter; exact Nm).
  rewrite reinsert_id in Fp by exact Kn.
  assert (Pf : Permutation (map snd go) (footnote_order (map snd go))) by apply EndDoc.flush_order_perm.
  destruct (Permutation_map_inv snd _ (Permutation_sym Pf)) as (go' & Eg & Pg).
  destruct (forall2_perm _ _ _ _ _ _ F1 Pg) as (ns' & Pn & F1'). rewrite Eg in Tx.
  assert (St : exists gs, stage s s' ns' gs /\ at_most_one (only is_foot) gs).
  { destruct ns' as [|n0 ns0].
    + inversion F1'; subst go'. apply Permutation_sym, Permutation_nil in Pg. rewrite Pg in O. cbn in O. exists []. split; [apply stage_refl; [exact C|rewrite O; apply app_nil_r|exact Td']|left; reflexivity].
    + destruct (notes_lines _ _ _ F1' Tx ltac:(discriminate)) as (ls & feet & Et & Ch & La & Sm & Rd & l & r & El & Sh & Bn).
      assert (Gn : is_nil (map snd go) = false). { destruct go; [|reflexivity]. apply Permutation_nil in Pg. subst go'. inversion F1'. }
      unfold section_text in O. rewrite Gn, blanks_before_eq, Et, <- text_of_app in O. exists [ls]. split.
      2:{ right. exists ls. split; [reflexivity|]. split; [split; [exists l, r; split; [exact El|apply Sh]|exact La]|]. exists feet.
        pose proof (Rd [] [] Logic.I onward_nil) as On. rewrite !app_nil_r in On. split; [exact (on_reads _ _ On)|]. split; [inversion Sm; discriminate|].
        clear - Sm. induction Sm as [|n b ns bs H Sm IH]; constructor; [inversion H; reflexivity|exact IH]. }
      split; [exact C|].
      assert (Ch' : Forall (Forall line_char) (repeat [] (blanks_before (output s)) ++ ls)) by (apply Forall_app; split; [apply chars_repeat|exact Ch]).
      exists (repeat [] (blanks_before (output s)) ++ ls), feet, []. split; [exact O|]. split; [exact Ch'|]. destruct (feet_only _ _ Sm) as (Z1 & Z2 & Z3).
      split; [split; [rewrite Td'; symmetry; apply app_nil_r|split; [exact Z1|split; [rewrite Z2; exact Sm|exact Z3]]]|]. split; [|split; [|split]].
      * intros rest bs [Q|Q] On; [apply app_eq_nil in Q; destruct Q as [_ Q]; rewrite El in Q; discriminate|]. rewrite <- app_assoc. apply onward_blanks; [apply blank_repeat|]. apply Rd; assumption.
      * intros Op rest _. apply opens_blank in Op. destruct (blanks_before (output s)); [lia|reflexivity].
      * right. rewrite O. apply ended_lines; [exact Ch'|]. assert (Ne : ls <> []) by (rewrite El; discriminate). destruct (exists_last Ne) as (a & z & Ez).
        rewrite Ez in *. rewrite app_assoc, last_last in *. exact La.
      * intro Op. rewrite (ended_one _ Op). cbn. rewrite app_nil_r. reflexivity. }
  destruct St as (gs & St & Ag). exists ns', ks, gs. split; [exact St|]. split; [exact Ag|]. split; [|split].
  - constructor; try congruence.
    + split; [congruence|]. rewrite Pr. exact Td.
    + rewrite Fp. apply Forall_forall. intros kv I K. apply Em in K. destruct K as [K|K].
      * unfold keep in I. apply filter_In in I. destruct I as [I _]. rewrite Forall_forall in Fr. exact (Fr kv I K).
      * assert (Fn : forall kv, In kv (f_pending (footnotes s)) -> fn_name (snd kv) = fst kv).
        { intros y Iy. clear - Nt Iy. induction Nt as [|n kv open kvs H Nt IH]; [destruct Iy|]. destruct Iy as [<-|Iy]; [|apply IH; exact Iy].
          symmetry. exact (proj1 H). }
        apply in_map_iff in K. destruct K as (f & Ef & K). apply (Permutation_in _ (Permutation_sym Pf)) in K. apply in_map_iff in K. destruct K as (y & <- & Iy).
        unfold keep, go in I, Iy. apply filter_In in I. apply filter_In in Iy. destruct I as [I I'], Iy as [Iy Iy']. rewrite (Fn y Iy) in Ef.
        assert (y = kv). { clear - Nm I Iy Ef. revert I Iy. induction (f_pending (footnotes s)) as [|z l IH]; intros I Iy; [destruct I|]. cbn [map] in Nm. inversion Nm as [|? ? N1 N2]; subst.
          destruct I as [->|I], Iy as [->|Iy]; auto; exfalso; apply N1; [rewrite <- Ef|rewrite Ef]; apply in_map; assumption. }
        subst y. rewrite Iy' in I'. discriminate.
  - eapply Permutation_trans; [exact Pm|]. apply Permutation_app_tail. exact Pn.
  - intros ->. unfold keep in F2. clear - F2. assert (Z : forall l : list (str * footnote), filter (fun kv => negb (due None (fn_reference_line (snd kv)))) l = []) by (induction l as [|x l IH]; [reflexivity|exact IH]).
    rewrite Z in F2. inversion F2. reflexivity.
Qed.
Lemma flush_run : forall before s s' open, ready s open -> flush_all U o checks before s = Ok s' ->
  exists ns open' gs, stage s s' ns gs /\ closing gs /\ ready s' open' /\ Permutation open (ns ++ open') /\ (before = None -> open' = []).
Proof.
  intros before s s' open Rd E. unfold flush_all in E. apply seqa_ok in E. destruct E as (m1 & E1 & E). apply seqa_ok in E. destruct E as (m2 & E2 & E3).
  destruct (flush_notes_stage _ _ _ _ Rd E1) as (ns & open' & g1 & St1 & Ag1 & [[Tc Td] Nt Nm Fr Nr Sk P1 P2] & Pm & Al).
  destruct (flush_references_eq m1) as (z & F & O & T & Cx & Pe & Fo & Sk' & W & P1' & P2' & _). rewrite F in E2. injection E2 as <-.
  assert (Pr : Permutation (live_references m1) (reference_order (live_references m1))) by apply EndDoc.flush_order_perm.
  assert (Df : Forall definable (live_references m1)).
  { apply Forall_forall. intros r I. unfold live_references in I. apply filter_In in I. destruct I as [I _]. apply in_map_iff in I.
    destruct I as ([k r'] & <- & I). exact (Td k r' I). }
  assert (St2 : exists g2, stage m1 z [] g2 /\ at_most_one (only is_definition) g2).
  { apply (defs_stage _ _ (reference_order (live_references m1))); [exact Cx|eapply Permutation_Forall; eassumption| |exact T]. rewrite O. do 2 f_equal.
    destruct (live_references m1) as [|r rs]; [apply Permutation_nil in Pr; rewrite Pr; reflexivity|]. destruct (reference_order (r :: rs)) eqn:Q; [|reflexivity].
    apply Permutation_sym, Permutation_nil in Pr. discriminate. }
  destruct (flush_footnote_references_eq before z) as (y & Fy & Oy & Ty & Cy & Py & G1 & G2 & G3 & G4 & G5 & G6 & Sy & _ & N1 & N2 & _). rewrite Fy in E3. injection E3 as <-.
  assert (Dn : Forall definable (due_footnote_references before z)).
  { apply Forall_forall. intros r I. unfold due_footnote_references in I. apply in_map_iff in I. destruct I as (kv & <- & I). apply filter_In in I. destruct I as [I _].
    unfold live_footnote_references in I. apply filter_In in I. destruct I as [I _]. rewrite Fo in I. rewrite Forall_forall in Nr. exact (Nr kv I). }
  destruct St2 as (g2 & St2 & Ag2). destruct (defs_stage _ _ _ Cy Dn Oy Ty) as (g3 & St3 & Ag3). exists ns, open', (g1 ++ g2 ++ g3). split; [|split; [exists g1, g2, g3; auto|split; [|split; [exact Pm|exact Al]]]].
  - rewrite <- (app_nil_r ns). eapply stage_trans; [exact St1|]. change (@nil node) with (@nil node ++ @nil node). eapply stage_trans; eassumption.
  - constructor; try congruence.
    + split; [congruence|]. rewrite Py, Pe. intros k r [].
    + rewrite G1, G2, Fo. exact Fr.
    + rewrite G6. apply reinsert_all with (P := fun v : reference * nat => definable (fst v)). unfold kept_footnote_references, live_footnote_references. apply Forall_forall. intros kv I. apply filter_In in I. destruct I as [I _].
      apply filter_In in I. destruct I as [I _]. rewrite Fo in I. rewrite Forall_forall in Nr. exact (Nr kv I).
Qed.

(** ** Collecting the footnotes *)
(** What collecting a footnote's content leaves alone. *)
Record quiet (s m : st) : Prop := {
  qt_still : still s m;
  qt_cx : cx m = cx s;
  qt_output : output m = output s
}.
Lemma quiet_refl : forall s, f_collecting (footnotes s) = true -> quiet s s.
Proof. intros s C. constructor; [apply still_refl; exact C|reflexivity|reflexivity]. Qed.
Lemma quiet_trans : forall a b c, quiet a b -> quiet b c -> quiet a c.
Proof. intros a b c [S1] [S2]. constructor; [eapply still_trans; eassumption|congruence|congruence]. Qed.
Lemma events_quiet : forall evs s m, f_collecting (footnotes s) = true -> definable_uses evs -> all (map do_event evs) s = Ok m -> quiet s m.
Proof.
  intros evs s m C D E. constructor; [exact (proj2 (g_events evs D) s m C E)| |].
  - revert s C E. induction evs as [|e evs IH]; intros s C E; [injection E as <-; reflexivity|]. cbn [map] in E. rewrite all_cons in E. apply seqa_ok in E. destruct E as (m1 & E1 & E2).
    rewrite (IH ltac:(intros r I; apply D; right; exact I) m1); [|destruct e; injection E1 as <-; cbn; rewrite ?C; reflexivity|exact E2]. destruct e; injection E1 as <-; cbn; rewrite ?C; reflexivity.
  - revert s C E. induction evs as [|e evs IH]; intros s C E; [injection E as <-; reflexivity|]. cbn [map] in E. rewrite all_cons in E. apply seqa_ok in E. destruct E as (m1 & E1 & E2).
    rewrite (IH ltac:(intros r I; apply D; right; exact I) m1); [|destruct e; injection E1 as <-; cbn; rewrite ?C; reflexivity|exact E2]. destruct e; injection E1 as <-; cbn; rewrite ?C; reflexivity.
Qed.
(** One of several blocks. *)
Lemma block_single : forall c next k s s', good (At 0 0 0) c -> is_heading c = false -> ends_dark c -> ctx_at (At 0 0 0) (cx s) -> f_collecting (footnotes s) = true ->
  single_block (ser next c) k s = Ok s' ->
  exists L b m, StructProof.wrote U PN ENT o B src (At 0 0 0) c L b /\ tidy L /\ quiet s m /\ k (join [c_nl] L) m = Ok s'.
Proof.
  intros c next k s s' G Nh Hd C Co E. unfold single_block, get in E. apply seqa_ok in E. destruct E as (m1 & E1 & E). injection E1 as <-.
  apply seqa_ok in E. destruct E as (m2 & E2 & E). apply seqa_ok in E. destruct E as (m3 & E3 & E). injection E3 as <-.
  assert (Em : emits U PN ENT o B src ends_nl checks (At 0 0 0) c) by (apply good_emits; [exact cols|left; cbn; auto|exact G]).
  destruct (Em next (set_output [] s) m2) as (Cx & L & b & X & W & Ox & Ex); [exact C|congruence|exact E2|reflexivity|].
  assert (T : tidy L) by (split; [exact (wr_end _ _ _ _ _ _ _ _ _ _ W)|apply (wr_trim _ _ _ _ _ _ _ _ _ _ W); exact Hd]).
  cbn [inner Nat.eqb negb] in Ex. rewrite andb_false_r, lf_top in Ex. subst X. cbn [output set_output app] in Ox.
  exists L, b. eexists. split; [exact W|]. split; [exact T|]. split; [|rewrite Ox, (trim_lines L T) in E; exact E].
  pose proof (proj2 (proj1 (good_gentle c) _ next G) (set_output [] s) m2 Co E2) as [].
  constructor; [|exact Cx|reflexivity]. constructor; assumption.
Qed.
Lemma para_single : forall q ics next k s s', good (At 0 0 0) (Node NParagraph q ics) -> ctx_at (At 0 0 0) (cx s) -> f_collecting (footnotes s) = true ->
  single_block (ser next (Node NParagraph q ics)) k s = Ok s' ->
  exists x L m, para_text U ENT o src 0 (Node NParagraph q ics) x /\ para_lines x L /\ quiet s m /\ k (join [c_nl] L) m = Ok s'.
Proof.
  intros q ics next k s s' G C Co E. unfold single_block, get in E. apply seqa_ok in E. destruct E as (m1 & E1 & E). injection E1 as <-.
  apply seqa_ok in E. destruct E as (m2 & E2 & E). apply seqa_ok in E. destruct E as (m3 & E3 & E). injection E3 as <-.
  assert (C1 : ctx_at (At 0 0 0) (cx (set_output [] s))) by exact C.
  destruct (para_run U PN ENT o B src ends_nl checks (At 0 0 0) q ics next (set_output [] s) m2) as (Cx & x & L & X & Px & P & _ & Ox & Ex); [left; cbn; auto|exact C1|exact G|exact E2|].
  cbn [inner Nat.eqb] in *. rewrite lf_top in Ex. subst X. cbn [output set_output app] in Ox. rewrite Ox, (trim_lines L (para_tidy _ _ P)) in E.
  exists x, L. eexists. split; [exact Px|]. split; [exact P|]. split; [|exact E]. clear E.
  pose proof (proj2 (proj1 (good_gentle _) _ next G) (set_output [] s) m2 Co E2) as [].
  constructor; [|exact Cx|reflexivity]. constructor; assumption.
Qed.
Definition further (j : nat) (c : node) : Prop := good (At 0 0 0) c /\ moves o j c /\ untabbed o B c /\ ends_dark c.
Lemma further_heading : forall j c, further j c -> is_heading c = false.
Proof. intros j [v q cs] (_ & M & _). unfold is_heading. cbn [node_value]. destruct v; try reflexivity. destruct M. Qed.
Lemma blocks_run : forall j cs, Forall (further j) cs -> apart cs ->
  forall k s s' done, ctx_at (At 0 0 0) (cx s) -> f_collecting (footnotes s) = true -> Forall tidy done -> done <> [] ->
  footnote_blocks (join [c_nl] (glued done)) false (combine cs (with_next ser cs)) k s = Ok s' ->
  exists LL bs m, hung j LL bs /\ Forall2 (same 0) cs bs /\ quiet s m /\ k (join [c_nl] (glued (done ++ LL))) m = Ok s'.
Proof.
  intros j cs F. induction F as [|c cs Fc F IH]; intros A k s s' done C Co D N E.
  - cbn [with_next combine footnote_blocks] in E. rewrite (glued_trim done D N) in E.
    exists [], [], s. rewrite app_nil_r. split; [constructor|]. split; [constructor|]. split; [apply quiet_refl; exact Co|exact E].
  - cbn [with_next combine footnote_blocks] in E. pose proof (further_heading _ _ Fc) as Nh. destruct Fc as (G & M & Ut & Hd).
    destruct (block_single c _ _ s s' G Nh Hd C Co E) as (L & b & m & W & T & Q & E'). cbv beta in E'. cbn [negb andb] in E'. rewrite (join_ne L T) in E'. cbn [negb] in E'.
    rewrite <- (glued_text done L D N T) in E'.
    destruct (IH (proj2 A) k m s' (done ++ [L])) as (LL & bs & m' & H & Sm & Q' & Ek); [rewrite (qt_cx _ _ Q); exact C|exact (sl_collecting _ _ (qt_still _ _ Q))| | |exact E'|].
    + apply Forall_app. split; [exact D|constructor; [exact T|constructor]].
    + destruct done; discriminate.
    + exists (L :: LL), (b :: bs), m'. pose proof (wr_tabs _ _ _ _ _ _ _ _ _ _ W (or_intror Ut)) as Tb. split.
      { constructor; [apply (wr_shift _ _ _ _ _ _ _ _ _ _ W); assumption|exact (wr_chars _ _ _ _ _ _ _ _ _ _ W)|exact Tb|exact T| |exact H].
        intros rest Bn On. eapply (follows_next U PN ENT o B src 0 c b _ cs bs); [exact (wr_same _ _ _ _ _ _ _ _ _ _ W)|exact A|exact Sm|exact On|exact Bn]. }
      split; [constructor; [exact (wr_same _ _ _ _ _ _ _ _ _ _ W)|exact Sm]|]. split; [eapply quiet_trans; eassumption|]. rewrite <- app_assoc in Ek. exact Ek.
Qed.
(** Remembering a footnote. *)
Lemma note_kept : forall n f line s s1 m m' open, ready s open -> ~ In (note_name n) (map fst (f_pending (footnotes s))) -> ~ In (note_name n) (f_emitted (footnotes s)) ->
  set_collecting true line s = Ok s1 -> quiet s1 m -> (set_collecting false 0 ;; add_footnote f) m = Ok m' ->
  fn_name f = note_name n -> held n (note_name n, f) ->
  ready m' (open ++ [n]) /\ cx m' = cx s /\ output m' = output s /\ defs (trace m') = defs (trace s) /\ f_emitted (footnotes m') = f_emitted (footnotes s)
  /\ map fst (f_pending (footnotes m')) = map fst (f_pending (footnotes s)) ++ [note_name n].
Proof.
  intros n f line s s1 m m' open [[Tc Td] Nt Nm Fr Nr Sk P1 P2] Nk Ne E1 [[B1 B2 B3 B4 B5 B6 B7 B0 B10] B8 B9] E Fn H. injection E1 as <-.
  apply seqa_ok in E. destruct E as (m3 & E3 & E4). injection E3 as <-. injection E4 as <-.
  match goal with |- ready ?z _ /\ _ => set (z0 := z) in * end.
  assert (Fp : f_pending (footnotes z0) = f_pending (footnotes s) ++ [(note_name n, f)]).
  { unfold z0. cbn [footnotes set_footnotes f_pending f_emitted f_reference_lines f_collecting f_current_line f_pending_references]. rewrite Fn. cbn in B1. rewrite B1. apply imap_insert_snoc. exact Nk. }
  assert (Fe : f_emitted (footnotes z0) = f_emitted (footnotes s)) by exact B2.
  split; [|split; [exact B8|split; [exact B9|split; [exact B0|split; [exact Fe|rewrite Fp, map_app; reflexivity]]]]]. constructor.
  - split; [reflexivity|]. change (pending_references z0) with (pending_references m). rewrite B4. exact Td.
  - rewrite Fp. apply Forall2_app; [exact Nt|]. constructor; [exact H|constructor].
  - rewrite Fp, map_app. cbn [map fst]. apply (Permutation_NoDup (l := note_name n :: map fst (f_pending (footnotes s)))); [apply Permutation_cons_append|constructor; assumption].
  - rewrite Fp, Fe. apply Forall_app. split; [exact Fr|]. constructor; [exact Ne|constructor].
  - exact (B10 Nr).
  - change (skip z0) with (skip m). rewrite B5. exact Sk.
  - change (proper_nouns z0) with (proper_nouns m). rewrite B6. exact P1.
  - change (common_nouns z0) with (common_nouns m). rewrite B7. exact P2.
Qed.
Lemma note_step : forall n next s m open, good_note n -> ~ In (note_name n) (map fst (f_pending (footnotes s))) -> ~ In (note_name n) (f_emitted (footnotes s)) ->
  ready s open -> ctx_at (At 0 0 0) (cx s) -> ser next n s = Ok m ->
  ready m (open ++ [n]) /\ cx m = cx s /\ output m = output s /\ defs (trace m) = defs (trace s) /\ f_emitted (footnotes m) = f_emitted (footnotes s)
  /\ map fst (f_pending (footnotes m)) = map fst (f_pending (footnotes s)) ++ [note_name n].
Proof.
  intros n next s m open G Nk Ne Rd Cx E. inversion G as [name p q ics x evs Nn Nf Nl Ic Du Sf Nc En|name p q ics cs Nn Nf Nl Gp A F Ex En]; subst n.
  - cbn [serialize] in E. cbv zeta in E. unfold footnote_definition, get in E. cbv zeta in E.
    change (footnote_has_blocks [Node NParagraph q ics]) with false in E. apply seqa_ok in E. destruct E as (m1 & E1 & E).
    assert (W : wcat (with_next (collect_inline U ENT o src) [Node NParagraph q ics]) = Ok (x, evs)).
    { cbn [with_next wcat fold_right hd_error]. unfold inline_content in Ic. cbn [node_children] in Ic.
      change (wapp (wcat (with_next (collect_inline U ENT o src) ics)) (wret []) = Ok (x, evs)). rewrite Ic. cbn. rewrite !app_nil_r. reflexivity. }
    rewrite W in E. unfold SerModel.inline in E. apply seqa_ok in E. destruct E as (m2 & E2 & E).
    assert (Q : quiet m1 m2).
    { injection E1 as <-. match type of E2 with _ ?z = _ => exact (events_quiet evs z m2 eq_refl Du E2) end. }
    eapply note_kept; [exact Rd|exact Nk|exact Ne|exact E1|exact Q|exact E|reflexivity|]. cbn [note_name node_value]. split; [reflexivity|]. cbn [snd]. intros t Et.
    match type of Et with footnote_text _ _ _ ?f = _ => destruct (note_written U o checks f t x Et eq_refl eq_refl) as (ls & Tx & Ch & La & Bk & Bn) end;
      [split; assumption|exact Nl|exact Sf|exact Nc|].
    eexists. eexists. split; [exact Tx|]. split; [exact Ch|]. split; [exact La|]. split; [exact Bk|]. cbn [fn_name].
    split; [constructor; constructor; [constructor; exists x, evs; auto|constructor]|]. split; [eauto|exact Bn].
  - cbn [serialize] in E. cbv zeta in E. unfold footnote_definition, get in E. cbv zeta in E.
    set (pn := Node NParagraph q ics) in *.
    assert (Hb : footnote_has_blocks (pn :: cs) = true).
    { apply (blocks_seen o (S (byte_len name))); [|exact Ex]. eapply Forall_impl; [|exact F]. intros c Hc. apply Hc. }
    rewrite Hb in E. apply seqa_ok in E. destruct E as (m1 & E1 & E).
    cbn [with_next combine footnote_blocks] in E. cbn [negb andb app] in E.
    match type of E with single_block _ ?k _ = _ => destruct (para_single q ics (hd_error cs) k m1 m Gp) as (x & L & m2 & Px & P & Q & E'); [injection E1 as <-; exact Cx|injection E1 as <-; reflexivity|exact E|] end.
    cbv beta in E'. assert (F' : Forall (further (S (byte_len name))) cs) by exact F.
    match type of E' with footnote_blocks _ _ _ ?fin _ = _ => destruct (blocks_run _ cs F' A fin m2 m [L]) as (LL & bs & m3 & H & Sm & Q' & Ek) end;
      [rewrite (qt_cx _ _ Q); injection E1 as <-; exact Cx|exact (sl_collecting _ _ (qt_still _ _ Q))|repeat constructor; apply (para_tidy _ _ P)|discriminate|exact E'|].
    assert (Sh : S (byte_len name) <= 3).
    { rewrite Exists_exists in Ex. destruct Ex as (c & I & _). rewrite Forall_forall in F. destruct (F c I) as (_ & M & _). destruct c as [v qc ccs]. clear - M. destruct v; try contradiction M; try exact M.
      destruct kind; unfold moves in M; cbn [node_value] in M; lia. }
    cbn [app] in Ek. eapply note_kept; [exact Rd|exact Nk|exact Ne|exact E1|eapply quiet_trans; eassumption|exact Ek|reflexivity|]. cbn [note_name node_value]. split; [reflexivity|]. cbn [snd]. intros t Et.
    match type of Et with footnote_text _ _ _ ?f = _ => destruct (notes_written U o checks f t x L LL bs Et eq_refl eq_refl) as (ls & Tx & Ch & La & Bk & Bn) end;
      [split; assumption|exact Nl|exact Sh|exact P|exact H|].
    eexists. eexists. split; [exact Tx|]. split; [exact Ch|]. split; [exact La|]. split; [exact Bk|]. cbn [fn_name].
    split; [|split; [eauto|exact Bn]]. constructor. constructor; [constructor; exact Px|exact Sm].
Qed.
Definition usual (n : node) : Prop := good (At 0 0 0) n \/ good_note n.
Lemma good_sorts : forall n, good (At 0 0 0) n -> ~ note_definition n /\ (forall d, ~ directs n d) /\ is_front_matter n = false.
Proof.
  intros n G. inversion G; subst; (split; [intros [? Q]; discriminate Q|split; [|reflexivity]]); try assumption; intros ? (? & ? & Q & _); discriminate Q.
Qed.
Lemma note_sorts : forall n, good_note n -> note_definition n /\ is_note n = true /\ is_front_matter n = false.
Proof. intros n G. inversion G; subst; (split; [eexists; reflexivity|split; reflexivity]). Qed.
Lemma usual_note : forall n, usual n -> note_definition n -> good_note n.
Proof. intros n [G|G] N; [|exact G]. apply good_sorts in G. tauto. Qed.
Lemma usual_good : forall n, usual n -> ~ note_definition n -> good (At 0 0 0) n.
Proof. intros n [G|G] N; [exact G|]. apply note_sorts in G. tauto. Qed.
Lemma is_note_iff : forall n, is_note n = true <-> note_definition n.
Proof.
  intro n. unfold is_note, note_definition. destruct (node_value n); split; intro H; try discriminate; try (destruct H as [? H]; discriminate H); eauto.
Qed.
Lemma is_note_false : forall n, ~ note_definition n -> is_note n = false.
Proof. intros n H. destruct (is_note n) eqn:E; [|reflexivity]. apply is_note_iff in E. contradiction. Qed.
Lemma notes_ready : forall cs s s' open, notes_run U PN ENT o B src ends_nl checks cs s s' -> Forall usual cs -> ready s open -> ctx_at (At 0 0 0) (cx s) ->
  NoDup (map fst (f_pending (footnotes s)) ++ map note_name (note_part cs)) -> f_emitted (footnotes s) = [] ->
  ready s' (open ++ note_part cs) /\ cx s' = cx s /\ output s' = output s /\ defs (trace s') = defs (trace s).
Proof.
  intros cs s s' open R. revert open. induction R as [s|n cs s m s' N E R IH|n cs s s' N R IH]; intros open F Rd Cx Nd Em.
  - cbn. rewrite app_nil_r. auto.
  - inversion F as [|? ? F1 F2]; subst. pose proof (usual_note n F1 N) as G. assert (Q : note_part (n :: cs) = n :: note_part cs) by (unfold note_part; cbn [filter]; rewrite (proj2 (is_note_iff n) N); reflexivity).
    rewrite Q in *. cbn [map] in Nd.
    assert (Nk : ~ In (note_name n) (map fst (f_pending (footnotes s)))). { apply NoDup_remove_2 in Nd. intro I. apply Nd. apply in_or_app. left. exact I. }
    destruct (note_step n _ s m open G Nk ltac:(rewrite Em; intros []) Rd Cx E) as (R1 & C1 & O1 & T1 & E1 & K1).
    destruct (IH (open ++ [n]) F2 R1 ltac:(rewrite C1; exact Cx)) as (R2 & C2 & O2 & T2); [rewrite K1, <- app_assoc; exact Nd|congruence|].
    rewrite <- app_assoc in R2. split; [exact R2|]. repeat split; congruence.
  - inversion F as [|? ? F1 F2]; subst. assert (Q : note_part (n :: cs) = note_part cs) by (unfold note_part; cbn [filter]; rewrite (is_note_false n N); reflexivity).
    rewrite Q in *. apply IH; assumption.
Qed.

(** ** HTML blocks at the end *)
Fixpoint commented (cs : list node) : Prop :=
  match cs with
  | [] => True
  | n :: r => (exists l, html_literal n l /\ (r <> [] -> comment_block (cm_lines l) = true)) /\ commented r
  end.
Lemma main_note : forall n cs, note_definition n -> main_part (n :: cs) = main_part cs.
Proof. intros n cs N. unfold main_part. cbn [filter]. rewrite (proj2 (is_note_iff n) N). reflexivity. Qed.
Lemma main_other : forall n cs, ~ note_definition n -> main_part (n :: cs) = n :: main_part cs.
Proof. intros n cs N. unfold main_part. cbn [filter]. rewrite (is_note_false n N). reflexivity. Qed.
Lemma trailing_trace : forall cs first s s', output_trailing first cs s = Ok s' -> defs (trace s') = defs (trace s).
Proof.
  induction cs as [|n cs IH]; intros first s s' E; [injection E as <-; reflexivity|]. cbn [output_trailing] in E.
  destruct (node_value n); try (eapply IH; exact E). apply seqa_ok in E. destruct E as (m1 & E1 & E). apply seqa_ok in E. destruct E as (m2 & E2 & E3).
  rewrite (IH _ _ _ E3). injection E2 as <-. cbn [trace set_output]. destruct first; [|injection E1 as <-; reflexivity].
  rewrite ensure_blank_line_eq in E1. injection E1 as <-. reflexivity.
Qed.
Lemma trailing_run : forall cs first s s', output_trailing first cs s = Ok s' -> Forall usual cs -> commented (main_part cs) ->
  exists ls bs, output s' = output s ++ text_of ((if first && negb (is_nil (main_part cs)) then repeat [] (blanks_before (output s)) else []) ++ ls)
    /\ Forall (Forall line_char) ls /\ onward ls bs /\ Forall2 (same 0) (main_part cs) bs /\ (main_part cs = [] -> ls = []).
Proof.
  induction cs as [|n cs IH]; intros first s s' E F C.
  - injection E as <-. exists [], []. cbn. rewrite andb_false_r, app_nil_r. split; [reflexivity|]. split; [constructor|]. split; [apply onward_nil|]. split; [constructor|auto].
  - inversion F as [|? ? F1 F2]; subst. destruct (is_note n) eqn:N.
    + apply is_note_iff in N. rewrite (main_note n cs N) in *. cbn [output_trailing] in E. destruct N as [name N]. rewrite N in E. apply IH; assumption.
    + assert (N' : ~ note_definition n) by (intro Q; apply is_note_iff in Q; congruence). rewrite (main_other n cs N') in *. cbn [commented] in C. destruct C as [(l & Hl & Cm) C].
      pose proof (usual_good n F1 N') as G. cbn [output_trailing] in E. unfold html_literal in Hl. rewrite Hl in E. apply seqa_ok in E. destruct E as (m1 & E1 & E). apply seqa_ok in E. destruct E as (m2 & E2 & E3).
      injection E2 as <-. destruct n as [v q ics]. cbn [node_value] in Hl. subst v. inversion G as [| | | | | | | |? ? ? H D|]; subst.
      destruct (IH false _ _ E3 F2 C) as (ls & bs & O & Ch & On & Sm & Em). cbn [andb app output set_output] in O.
      exists (cm_lines l ++ ls), (Html (cm_lines l) :: bs). cbn [is_nil negb]. rewrite andb_true_r. split; [|split; [|split; [|split; [|discriminate]]]].
      * assert (Om : output m1 = output s ++ text_of (if first then repeat [] (blanks_before (output s)) else [])).
        { destruct first; [|injection E1 as <-; symmetry; apply app_nil_r]. rewrite ensure_blank_line_eq in E1. injection E1 as <-. cbn [output set_output]. rewrite blanks_before_eq. reflexivity. }
        rewrite O, Om, !text_of_app, <- !app_assoc. do 2 f_equal. f_equal. unfold text_of. apply H.
      * apply Forall_app. split; [apply cm_lines_chars|exact Ch].
      * apply onward_block; [apply html_block; exact H| |apply (on_reads _ _ On)]. cbn [follows]. destruct (main_part cs) as [|n' r'] eqn:M.
        -- rewrite (Em eq_refl). right. exact Logic.I.
        -- left. apply Cm. discriminate.
      * constructor; [constructor|exact Sm].
Qed.

(** ** Documents *)
Lemma separator_lines : forall prev c, (forall p, prev = Some p -> is_front_matter p = false) ->
  exists n, block_separator prev c = text_of (repeat [] n) /\ (prev <> None -> 1 <= n) /\ (prev = None -> n = 0) /\ n = blanks_between prev c.
Proof.
  intros prev c P. exists (blanks_between prev c). unfold block_separator, blanks_between. destruct prev as [pn|]; [|split; [reflexivity|split; [congruence|auto]]].
  rewrite (P pn eq_refl). unfold heading_level, head_of, is_heading.
  destruct (node_value pn), (node_value c); try (split; [reflexivity|split; [auto|split; [discriminate|reflexivity]]]);
    repeat (match goal with |- context [match ?l with 0 => _ | S _ => _ end] => destruct l end; try (split; [reflexivity|split; [auto|split; [discriminate|reflexivity]]])).
Qed.
Lemma block_alone : forall ls b, block_lines ls b -> reads ls [b].
Proof.
  intros ls b [_ H]. specialize (H [] []). rewrite app_nil_r in H. apply H; [|apply reads_nil]. destruct b; cbn; auto. split; [exact Logic.I|]. split; [exact Logic.I|discriminate].
Qed.
(** The blocks that are written where they stand. *)
Inductive early : list node -> list node -> Prop :=
| ea_nil : early [] []
| ea_note : forall n cs w, note_definition n -> early cs w -> early (n :: cs) w
| ea_trail : forall n cs w, trails n cs -> early cs w -> early (n :: cs) w
| ea_block : forall n cs w, ~ note_definition n -> ~ trails n cs -> early cs w -> early (n :: cs) (n :: w).
Lemma early_none : forall cs w, early cs w -> Forall may_trail cs -> w = [].
Proof.
  intros cs w H. induction H as [|n cs w N H IH|n cs w T H IH|n cs w N T H IH]; intro F; [reflexivity|inversion F; subst; auto|inversion F; subst; auto|].
  exfalso. inversion F as [|? ? M F']; subst. apply T. destruct M as [M|[M D]]; [contradiction|]. split; [exact M|]. split; [right; split; assumption|exact F'].
Qed.
Lemma notes_last_tail : forall n cs, notes_last (n :: cs) -> notes_last cs.
Proof.
  intros n cs (ms & ks & E & F1 & F2). destruct ms as [|x ms]; [exists [], cs; cbn in E; subst ks; inversion F2; auto|]. injection E as -> ->. exists ms, ks. inversion F1; auto.
Qed.
Lemma note_trails : forall n, note_definition n -> may_trail n.
Proof. intros n H. left. exact H. Qed.
Lemma follows_main : forall d c b rest cs bs, same d c b -> apart (c :: cs) -> Forall2 (same d) cs (main_blocks bs) -> onward rest bs -> blank_next rest -> follows b rest bs.
Proof.
  intros d c b rest cs bs S A F On Bn. destruct b; try exact Logic.I; try exact Bn; try (right; exact Bn); try (exfalso; inversion S; fail).
  - apply blank_stops. exact Bn.
  - split; [exact Bn|]. split; [apply (on_calm _ _ On)|]. intros m' E. destruct (on_item _ _ On m' E) as (it & bs' & ->).
    unfold main_blocks in F. cbn [filter is_main is_foot is_definition orb negb] in F. inversion F as [|c' b' cs' bs'' S' F']; subst. cbn [apart] in A. destruct A as [A _].
    destruct (same_list _ _ _ _ _ _ _ _ _ _ S) as (k1 & t1 & p1 & x1 & -> & ->). destruct (same_list _ _ _ _ _ _ _ _ _ _ S') as (k2 & t2 & p2 & x2 & -> & ->).
    destruct A as [A _]. specialize (A k1 t1 k2 t2 eq_refl eq_refl). destruct k1, k2; try reflexivity; congruence.
  - split; [exact Bn|]. split; [apply (on_calm _ _ On)|]. clear On. induction bs as [|b bs IH]; [reflexivity|].
    destruct b; try reflexivity; [apply IH; exact F|]. exfalso. unfold main_blocks in F. cbn [filter is_main is_foot is_definition orb negb] in F.
    inversion F as [|c' b' cs' bs'' S' F']; subst. destruct A as [[_ A] _]. inversion S; subst. inversion S'; subst. apply A; reflexivity.
Qed.
Lemma blank_not_rule : forall ls, blank_next ls -> ls <> [] -> hd [] ls <> lit "---".
Proof. intros [|l ls] H N Q; [congruence|]. cbn [hd blank_next] in *. subst l. discriminate H. Qed.
Definition begins_with_rule (cs : list node) : Prop := exists p cs0 cs1, cs = Node NThematicBreak p cs0 :: cs1.
Lemma document_run : forall tail prev cs s s', doc_run U PN ENT o B src ends_nl checks tail prev cs s s' ->
  forall open, Forall usual tail -> commented (main_part tail) -> Forall usual cs -> (forall p, prev = Some p -> is_front_matter p = false) ->
  (forall w, early cs w -> apart (w ++ main_part tail)) ->
  ready s open -> ctx_at (At 0 0 0) (cx s) ->
  exists w ls bs ns ds, early cs w /\ (defs (trace s') = defs (trace s) ++ ds /\ def_blocks bs = map define_of ds) /\ output s' = output s ++ text_of ls /\ Forall (Forall line_char) ls /\ onward ls bs
    /\ Forall2 (same 0) (w ++ main_part tail) (main_blocks bs)
    /\ Permutation open ns /\ Forall2 same_note ns (foot_blocks bs)
    /\ (prev <> None -> opens (output s) -> blank_next ls)
    /\ (prev = None -> output s = [] -> hd [] ls = lit "---" -> begins_with_rule cs /\ rule_line o = lit "---")
    /\ (notes_last cs -> ended (output s) \/ prev = None /\ w <> [] -> arranged U PN ENT o B src (main_part tail) prev w ls).
Proof.
  intros tail prev cs s s' R. induction R as [prev s m s' E1 E2|prev n cs s s' N R IH|prev n cs s s' T R IH|prev n l cs s s' D H E|prev n d l cs s m s' D Nd H E R IH|prev n cs s m s' Or E R IH];
    intros open Ft Ct F P A Rd C.
  - destruct (flush_run None s m open Rd E1) as (ns & open' & gs & (_ & ls & feet & ds & O & Ch & (Td & M1 & Sn & D1) & On & Bn & En & Ap) & Cg & _ & Pm & Al). rewrite (Al eq_refl), app_nil_r in Pm.
    destruct (trailing_run _ _ _ _ E2 Ft Ct) as (ls2 & bs2 & O2 & Ch2 & On2 & Sm2 & Em2).
    destruct (main_only _ _ _ Sm2) as (M2 & F2 & D2). cbn [andb] in O2.
    set (bl := if negb (is_nil (main_part tail)) then repeat [] (blanks_before (output m)) else []) in *.
    assert (Bb : Forall (fun l => is_blank l = true) bl) by (unfold bl; destruct (is_nil _); [constructor|apply blank_repeat]).
    assert (Cb : Forall (Forall line_char) bl) by (unfold bl; destruct (is_nil _); [constructor|apply chars_repeat]).
    assert (Bx : opens (output m) -> blank_next (bl ++ ls2)).
    { intro Op. apply opens_blank in Op. unfold bl. destruct (main_part tail) as [|x r]; [rewrite (Em2 eq_refl); exact Logic.I|]. cbn [is_nil negb]. destruct (blanks_before (output m)); [lia|reflexivity]. }
    assert (Opm : opens (output s) -> opens (output m)).
    { intro Op. destruct En as [->|En]; [|left; exact En]. rewrite O. cbn [text_of flat_map]. rewrite app_nil_r. exact Op. }
    assert (Bq : opens (output s) -> blank_next (ls ++ bl ++ ls2)) by (intro Op; apply Bn; [exact Op|apply Bx, Opm, Op]).
    exists [], (ls ++ bl ++ ls2), (feet ++ bs2), ns, ds. split; [constructor|].
    split; [split; [rewrite (trailing_trace _ _ _ _ E2); exact Td|rewrite def_app, D1, D2; apply app_nil_r]|]. split; [rewrite O2, O, !text_of_app, <- !app_assoc; reflexivity|].
    split; [repeat (apply Forall_app; split); assumption|]. split; [|split; [|split; [exact Pm|split; [|split; [|split]]]]].
    + apply On; [|apply onward_blanks; assumption]. destruct En as [->|En]; [left; reflexivity|]. right. apply Bx. left. exact En.
    + rewrite main_app, M1, M2. exact Sm2.
    + rewrite foot_app, F2, app_nil_r. exact Sn.
    + intros _. exact Bq.
    + intros _ Oe Q. exfalso. destruct (ls ++ bl ++ ls2) eqn:El; [discriminate Q|]. rewrite <- El in *. revert Q. apply blank_not_rule; [apply Bq; right; exact Oe|rewrite El; discriminate].
    + intros _ [Op|[_ Op]]; [|congruence]. rewrite (Ap Op). replace (bl ++ ls2) with (match main_part tail with [] => [] | _ => [] :: ls2 end); [eapply lo_end; [exact Cg|exact (on_reads _ _ On2)|exact Sm2]|].
      unfold bl. destruct (main_part tail) as [|x r]; [rewrite (Em2 eq_refl); reflexivity|]. cbn [is_nil negb]. replace (blanks_before (output m)) with 1; [reflexivity|].
      symmetry. apply ended_one. destruct En as [->|En]; [|exact En]. rewrite O. cbn [text_of flat_map]. rewrite app_nil_r. exact Op.
  - inversion F as [|? ? G F']; subst. pose proof (usual_note n G N) as Gn. apply note_sorts in Gn. destruct Gn as (_ & _ & Nf).
    destruct (IH open Ft Ct F') as (w & ls & bs & ns & ds & Ea & Td & O & Ch & On & Sm & Pm & Sn & Bn & _ & La); [intros p Q; injection Q as <-; exact Nf|intros w W; apply A; constructor; assumption|exact Rd|exact C|].
    exists w, ls, bs, ns, ds. split; [constructor; assumption|]. repeat (split; [assumption|]). split; [intros _; apply Bn; discriminate|]. split.
    + intros _ Oe Q. exfalso. destruct ls as [|x r]; [discriminate Q|]. revert Q. apply blank_not_rule; [apply Bn; [discriminate|right; exact Oe]|discriminate].
    + intros Nl Op. assert (Fn : Forall note_definition cs).
      { destruct Nl as (ms & ks & Ek & F1 & F2). destruct ms as [|x ms]; [cbn in Ek; subst ks; inversion F2; assumption|]. injection Ek as -> ->. inversion F1; contradiction. }
      assert (w = []) by (apply (early_none cs); [exact Ea|eapply Forall_impl; [|exact Fn]; exact note_trails]). subst w. destruct Op as [Op|[_ Op]]; [|congruence].
      specialize (La ltac:(exists [], cs; auto) (or_introl Op)). inversion La; subst. eapply lo_end; eassumption.
  - inversion F as [|? ? G F']; subst.
    assert (Nf : is_front_matter n = false) by (destruct T as [[l T] _]; unfold html_literal in T; unfold is_front_matter; rewrite T; reflexivity).
    destruct (IH open Ft Ct F') as (w & ls & bs & ns & ds & Ea & Td & O & Ch & On & Sm & Pm & Sn & Bn & _ & La); [intros p Q; injection Q as <-; exact Nf|intros w W; apply A; constructor; assumption|exact Rd|exact C|].
    exists w, ls, bs, ns, ds. split; [constructor; assumption|]. repeat (split; [assumption|]). split; [intros _; apply Bn; discriminate|]. split.
    + intros _ Oe Q. exfalso. destruct ls as [|x r]; [discriminate Q|]. revert Q. apply blank_not_rule; [apply Bn; [discriminate|right; exact Oe]|discriminate].
    + intros Nl Op. assert (w = []) by (apply (early_none cs); [exact Ea|exact (proj2 (proj2 T))]). subst w. destruct Op as [Op|[_ Op]]; [|congruence].
      specialize (La (notes_last_tail _ _ Nl) (or_introl Op)). inversion La; subst. eapply lo_end; eassumption.
  - exfalso. inversion F as [|? ? G F']; subst. assert (Nn : ~ note_definition n) by (intros [x Q]; unfold html_literal in H; congruence). apply (usual_good n G) in Nn. apply good_sorts in Nn. destruct Nn as (_ & K & _). exact (K _ D).
  - exfalso. inversion F as [|? ? G F']; subst. assert (Nn : ~ note_definition n) by (intros [x Q]; unfold html_literal in H; congruence). apply (usual_good n G) in Nn. apply good_sorts in Nn. destruct Nn as (_ & K & _). exact (K _ D).
  - inversion F as [|? ? Gu F']; subst. destruct Or as (On0 & Ot & _). pose proof (usual_good n Gu On0) as G. unfold document_block in E. apply seqa_ok in E. destruct E as (m1 & E1 & E).
    apply seqa_ok in E. destruct E as (m2 & E2 & E3). injection E2 as <-.
    assert (Fl : exists ns open' gs, stage s m1 ns gs /\ (closing gs /\ (gs = [] \/ begins_section n /\ prev <> None)) /\ ready m1 open' /\ Permutation open (ns ++ open') /\ (prev = None -> m1 = s /\ ns = [])).
    { assert (Z : m1 = s -> exists ns open' gs, stage s m1 ns gs /\ (closing gs /\ (gs = [] \/ begins_section n /\ prev <> None)) /\ ready m1 open' /\ Permutation open (ns ++ open') /\ (prev = None -> m1 = s /\ ns = [])).
      { intros ->. exists [], open, []. split; [apply stage_refl; reflexivity|]. split; [split; [exists [], [], []; repeat split; left; reflexivity|left; reflexivity]|]. split; [exact Rd|]. split; [apply Permutation_refl|auto]. }
      assert (Y : forall pn, prev = Some pn -> begins_section n -> flush_all U o checks (Some (start_line (node_pos n))) s = Ok m1 ->
        exists ns open' gs, stage s m1 ns gs /\ (closing gs /\ (gs = [] \/ begins_section n /\ prev <> None)) /\ ready m1 open' /\ Permutation open (ns ++ open') /\ (prev = None -> m1 = s /\ ns = [])).
      { intros pn Q Bs E'. destruct (flush_run _ _ _ _ Rd E') as (ns & open' & gs & St & Cg & Rd' & Pm & _). exists ns, open', gs. split; [exact St|].
        split; [split; [exact Cg|right; split; [exact Bs|rewrite Q; discriminate]]|]. repeat (split; [assumption|]). rewrite Q. discriminate. }
      assert (Nop : nop s = Ok m1 -> m1 = s) by (intro Q; injection Q as <-; reflexivity).
      assert (Hh : head_of n = heading_level n) by reflexivity.
      destruct (heading_level n) as [l|]; [|apply Z, Nop; exact E1].
      destruct l as [|[|[|[|l]]]]; try (apply Z, Nop; exact E1);
      (destruct prev as [pn|] eqn:Q; [eapply Y; [reflexivity|unfold begins_section; rewrite Hh; auto|exact E1]|apply Z, Nop; exact E1]). }
    destruct Fl as (ns1 & open' & gs & (C1 & ls1 & feet & ds1 & O1 & Ch1 & (Td1 & M1 & Sn1 & D1) & On1 & Bn1 & En1 & Ap1) & (Cg & Wg) & R1 & Pm1 & Pn). unfold get in E3. cbn [skip set_output] in E3. rewrite (rd_skip _ _ R1) in E3.
    destruct (separator_lines prev n P) as (k & Sp & K1 & K0 & Kb).
    set (m2 := set_output (output m1 ++ block_separator prev n) m1) in *.
    assert (T2 : tame m2) by exact (rd_tame _ _ R1).
    destruct (proj1 (proj1 (good_gentle n) _ _ G) _ _ T2 E3) as (Tm & Fm & Sm & Pm & Cm & Dm).
    assert (Rm : ready m open'). { destruct R1. constructor; [exact Tm|..]; rewrite ?Fm, ?Sm, ?Pm, ?Cm; assumption. }
    assert (Em : emits U PN ENT o B src ends_nl checks (At 0 0 0) n). { apply good_emits; [exact cols|left; cbn; auto|exact G]. }
    destruct (Em (hd_error cs) m2 m) as (Cx & ls & b & X & W & Ox & Ex); [change (cx m2) with (cx m1); rewrite C1; exact C| |exact E3|reflexivity|].
    { intros _. split; [exact (rd_proper _ _ R1)|exact (rd_common _ _ R1)]. }
    cbn [inner Nat.eqb negb] in Ex. rewrite andb_false_r, lf_top in Ex. subst X.
    assert (Enm : ended (output m)). { rewrite Ox. apply ended_lines; [apply (wr_chars _ _ _ _ _ _ _ _ _ _ W)|apply (wr_end _ _ _ _ _ _ _ _ _ _ W)]. }
    destruct (good_sorts n G) as (_ & _ & Nf).
    destruct (IH open' Ft Ct F') as (w & ls' & bs & ns2 & ds2 & Ea & (Td2 & D2) & O' & Ch & On & S' & Pm2 & Sn2 & Bn & _ & La); [intros p Q; injection Q as <-; exact Nf| |exact Rm| |].
    { intros w Ew. specialize (A (n :: w) (ea_block n cs w On0 Ot Ew)). cbn [app] in A. cbn [apart] in A. apply A. }
    { rewrite Cx. change (cx m2) with (cx m1). rewrite C1. exact C. }
    specialize (Bn ltac:(discriminate) ltac:(left; exact Enm)). specialize (A (n :: w) (ea_block n cs w On0 Ot Ea)). cbn [app] in A.
    pose proof (wr_block _ _ _ _ _ _ _ _ _ _ W) as Wb. pose proof (wr_same _ _ _ _ _ _ _ _ _ _ W) as Ws. cbn [inner] in Ws.
    pose proof (follows_main _ _ _ _ _ _ Ws A S' On Bn) as Fo.
    pose proof (onward_block _ _ _ _ Wb Fo (on_reads _ _ On)) as Ob.
    pose proof (onward_blanks _ _ _ (blank_repeat k) Ob) as Ok2.
    assert (Hd : prev <> None -> blank_next (repeat [] k ++ ls ++ ls')). { intro Q. specialize (K1 Q). destruct k; [lia|reflexivity]. }
    assert (Mb : main_blocks (b :: bs) = b :: main_blocks bs /\ foot_blocks (b :: bs) = foot_blocks bs /\ def_blocks (b :: bs) = def_blocks bs).
    { unfold main_blocks, foot_blocks, def_blocks. cbn [filter]. destruct b; inversion Ws; repeat split; reflexivity. }
    destruct Mb as (Mb & Fb & Db).
    exists (n :: w), (ls1 ++ repeat [] k ++ ls ++ ls'), (feet ++ b :: bs), (ns1 ++ ns2), (ds1 ++ ds2).
    split; [constructor; assumption|].
    split; [split; [rewrite Td2, Dm; change (trace m2) with (trace m1); rewrite Td1, <- app_assoc; reflexivity|rewrite def_app, Db, D1, D2, map_app; reflexivity]|].
    split; [rewrite O', Ox; cbn [output set_output m2]; rewrite O1, Sp, !text_of_app, <- !app_assoc; reflexivity|].
    split; [|split; [|split; [|split; [|split; [|split; [|split]]]]]].
    + apply Forall_app. split; [exact Ch1|]. apply Forall_app. split; [apply chars_repeat|].
      apply Forall_app. split; [exact (wr_chars _ _ _ _ _ _ _ _ _ _ W)|exact Ch].
    + apply On1; [|exact Ok2]. destruct prev as [pn|] eqn:Q; [right; apply Hd; discriminate|]. left. destruct (Pn eq_refl) as [Z1 Z2]. subst m1.
      rewrite <- (app_nil_r (output s)) in O1 at 1. apply app_inv_head in O1. destruct ls1 as [|x ls1]; [reflexivity|]. rewrite text_of_cons in O1. destruct x; discriminate O1.
    + rewrite main_app, M1, Mb. cbn [app]. constructor; assumption.
    + eapply Permutation_trans; [exact Pm1|]. apply Permutation_app_head. exact Pm2.
    + rewrite foot_app, Fb. apply Forall2_app; assumption.
    + intros Q Op. apply Bn1; [exact Op|]. apply Hd, Q.
    + intros Q Oe. rewrite (K0 Q). destruct (Pn Q) as [Z1 Z2]. subst m1.
      assert (L1 : ls1 = []). { rewrite <- (app_nil_r (output s)) in O1 at 1. apply app_inv_head in O1. destruct ls1 as [|x ls1]; [reflexivity|]. rewrite text_of_cons in O1. destruct x; discriminate O1. }
      subst ls1. change ([] ++ repeat [] 0 ++ ls ++ ls') with (ls ++ ls'). intro Hr.
      destruct Wb as ((l0 & r0 & El & _ & _) & _). rewrite El in *. cbn [app hd] in Hr. subst l0.
      pose proof (on_reads _ _ Ob) as Rb. apply reads_step in Rb. destruct Rb as [f Rb].
      assert (Z : read_step (read f) ((lit "---" :: r0) ++ ls') = add_block Rule (read f (r0 ++ ls'))) by reflexivity. rewrite Z in Rb.
      destruct (read f (r0 ++ ls')) as [bs'|]; [|discriminate]. injection Rb as <- _. inversion Ws; subst. split; [eexists; eexists; eexists; reflexivity|].
      assert (Eo : text_of (lit "---" :: r0) = text_of [rule_line o]).
      { apply (app_inv_head (output m2)). rewrite <- Ox. cbn [serialize] in E3. unfold thematic_break, get in E3. injection E3 as <-. cbn [output set_output].
        change (cx m2) with (cx s). rewrite (ca_quote _ _ C). cbn [marks Nat.eqb negb app]. unfold text_of, rule_line. cbn [flat_map]. cbn [output set_output m2]. rewrite app_nil_r, <- !app_assoc. reflexivity. }
      apply (f_equal cm_lines) in Eo. rewrite cm_lines_text_of in Eo by exact (wr_chars _ _ _ _ _ _ _ _ _ _ W).
      assert (Rs : rule_survives o) by (clear - G; inversion G; subst; assumption). rewrite cm_lines_text_of in Eo by (constructor; [exact (proj1 Rs)|constructor]). injection Eo as Eo _. symmetry. exact Eo.
    + intros Nl Op. assert (L1 : ls1 = set_apart gs).
      { destruct Op as [Op|[Q _]]; [apply Ap1; exact Op|]. destruct Wg as [->|[_ Wg]]; [|contradiction]. destruct (Pn Q) as [Z1 Z2]. subst m1.
        rewrite <- (app_nil_r (output s)) in O1 at 1. apply app_inv_head in O1. destruct ls1 as [|x ls1]; [reflexivity|]. rewrite text_of_cons in O1. destruct x; discriminate O1. }
      rewrite L1, Kb. eapply lo_block; [exact Cg|exact Wg|exact Ws|apply block_alone; exact Wb| |exact (wr_spacing _ _ _ _ _ _ _ _ _ _ W)|].
      * split; [|exact (wr_end _ _ _ _ _ _ _ _ _ _ W)]. destruct Wb as ((l0 & r0 & El & [Sh _] & _) & _). exists l0, r0. split; [exact El|exact Sh].
      * apply La; [exact (notes_last_tail _ _ Nl)|left; exact Enm].
Qed.

(** ** The end of the document *)
Lemma trailing_from : forall pre n rest, find_trailing_html_blocks (pre ++ n :: rest) <= List.length pre -> Forall may_trail (n :: rest).
Proof.
  intros pre n rest L. unfold find_trailing_html_blocks in L. set (cs := pre ++ n :: rest) in *.
  destruct (trailing_html_spec (rev cs) 0 0 ltac:(lia)) as (A & _ & _). cbv zeta in *. set (T := trailing_html (rev cs) 0 0) in *. cbn [plus] in *.
  assert (Lc : List.length cs = List.length pre + S (List.length rest)) by (unfold cs; rewrite app_length; reflexivity).
  destruct A as [A|(j & J & A & F)]; [lia|].
  assert (R : rev cs = rev (n :: rest) ++ rev pre) by (unfold cs; apply rev_app_distr).
  assert (FN : firstn (S (List.length rest)) (rev cs) = rev (n :: rest)).
  { rewrite R. replace (S (List.length rest)) with (List.length (rev (n :: rest)) + 0) by (rewrite rev_length; cbn [List.length]; lia). rewrite firstn_app_2. apply app_nil_r. }
  apply (forallb_firstn _ _ _ (S (List.length rest)) (S j)) in F; [|lia]. rewrite FN in F. rewrite forallb_forall in F.
  apply Forall_forall. intros x I. apply may_trail_iff. apply F. apply -> in_rev. exact I.
Qed.
Lemma trail_html : forall n, may_trail n -> ~ note_definition n -> exists l, html_literal n l.
Proof. intros n M N. apply may_trail_iff in M. unfold mt in M. unfold html_literal. destruct (node_value n) eqn:V; try discriminate; [eauto|]. exfalso. apply N. eexists. exact V. Qed.
Lemma main_in : forall n cs, In n (main_part cs) <-> In n cs /\ ~ note_definition n.
Proof.
  intros n cs. unfold main_part. rewrite filter_In. rewrite <- is_note_iff. destruct (is_note n); cbn; split; intros [? ?]; split; congruence.
Qed.
Lemma early_main : forall cs w pre, early cs w -> w ++ main_part (skipn (find_trailing_html_blocks (pre ++ cs) - List.length pre) cs) = main_part cs.
Proof.
  intros cs w pre H. revert pre. induction H as [|n cs w N H IH|n cs w T H IH|n cs w N T H IH]; intro pre.
  - rewrite skipn_nil. reflexivity.
  - specialize (IH (pre ++ [n])). rewrite <- app_assoc, app_length in IH. cbn [app List.length] in IH. rewrite (main_note n cs N).
    destruct (find_trailing_html_blocks (pre ++ n :: cs) - List.length pre) as [|d] eqn:D.
    + replace (find_trailing_html_blocks (pre ++ n :: cs) - (List.length pre + 1)) with 0 in IH by lia. cbn [skipn] in *. rewrite (main_note n cs N). exact IH.
    + replace (find_trailing_html_blocks (pre ++ n :: cs) - (List.length pre + 1)) with d in IH by lia. exact IH.
  - specialize (IH (pre ++ [n])). rewrite <- app_assoc, app_length in IH. cbn [app List.length] in IH.
    assert (Hn : is_html_block n = true) by (destruct T as [[l T] _]; unfold html_literal in T; unfold is_html_block; rewrite T; reflexivity).
    assert (Nn : ~ note_definition n) by (intros [x Q]; destruct T as [[l T] _]; unfold html_literal in T; congruence).
    apply (trails_iff pre n cs Hn) in T. rewrite T. replace (find_trailing_html_blocks (pre ++ n :: cs) - (List.length pre + 1)) with 0 in IH by lia. cbn [skipn] in *.
    assert (w = []). { apply (f_equal (@List.length node)) in IH. rewrite app_length in IH. destruct w; [reflexivity|cbn in IH; lia]. } subst w. reflexivity.
  - specialize (IH (pre ++ [n])). rewrite <- app_assoc, app_length in IH. cbn [app List.length] in IH. rewrite (main_other n cs N).
    destruct (find_trailing_html_blocks (pre ++ n :: cs) - List.length pre) as [|d] eqn:D.
    + exfalso. assert (M : Forall may_trail (n :: cs)) by (apply (trailing_from pre); lia). inversion M as [|? ? M1 M2]; subst. apply T. split; [exact (trail_html n M1 N)|split; assumption].
    + replace (find_trailing_html_blocks (pre ++ n :: cs) - (List.length pre + 1)) with d in IH by lia. cbn [app skipn]. f_equal. exact IH.
Qed.
Lemma early_nil : forall cs w, early cs w -> w = [] -> Forall may_trail cs.
Proof.
  intros cs w H. induction H as [|n cs w N H IH|n cs w T H IH|n cs w N T H IH]; intro Q; [constructor|constructor; [left; exact N|auto]|constructor; [apply T|auto]|discriminate].
Qed.
Lemma early_last : forall cs w, early cs w -> w = [] \/ exists w' n, w = w' ++ [n] /\ ~ html_only n.
Proof.
  intros cs w H. induction H as [|n cs w N H IH|n cs w T H IH|n cs w N T H IH]; auto. right. destruct IH as [->|(w' & m & -> & M)].
  - exists [], n. split; [reflexivity|]. intros (l & Hl & D). apply T. split; [eauto|]. split; [right; split; [eauto|exact D]|exact (early_nil _ _ H eq_refl)].
  - exists (n :: w'), m. split; [reflexivity|exact M].
Qed.
Lemma tail_html : forall pre cs, Forall html_only (main_part (skipn (find_trailing_html_blocks (pre ++ cs) - List.length pre) cs)).
Proof.
  intros pre cs. set (k := find_trailing_html_blocks (pre ++ cs) - List.length pre).
  assert (M : Forall may_trail (skipn k cs)).
  { destruct (skipn k cs) as [|n rest] eqn:E; [constructor|]. apply (trailing_from (pre ++ firstn k cs)). rewrite <- app_assoc, <- E, firstn_skipn, app_length, firstn_length.
    assert (k < List.length cs). { destruct (Nat.le_gt_cases (List.length cs) k) as [Q|Q]; [|exact Q]. rewrite skipn_all2 in E by exact Q. discriminate. }
    unfold k in *. clear E. lia. }
  apply Forall_forall. intros n I. apply main_in in I. destruct I as [I N]. rewrite Forall_forall in M. destruct (M n I) as [Q|[[l Q] D]]; [contradiction|]. exists l. auto.
Qed.
Lemma good_commented : forall pre0 cs, good_document U PN ENT o B src cs ->
  commented (main_part (skipn (find_trailing_html_blocks (pre0 ++ cs) - List.length pre0) cs)).
Proof.
  intros pre0 cs G.
  assert (Z : forall rest pre, cs = pre ++ rest -> find_trailing_html_blocks (pre0 ++ cs) <= List.length pre0 + List.length pre -> commented (main_part rest)).
  { induction rest as [|n rest IH]; intros pre E L; [exact Logic.I|].
    assert (M : Forall may_trail (n :: rest)) by (apply (trailing_from (pre0 ++ pre)); rewrite <- app_assoc, <- E, app_length; exact L).
    assert (Cr : commented (main_part rest)). { apply (IH (pre ++ [n])); [rewrite <- app_assoc; exact E|rewrite app_length; clear - L; lia]. }
    destruct (is_note n) eqn:Nn; [rewrite (main_note n rest) by (apply is_note_iff; exact Nn); exact Cr|].
    assert (N : ~ note_definition n) by (intro Q; apply is_note_iff in Q; congruence). rewrite (main_other n rest N). inversion M as [|? ? M1 M2]; subst.
    destruct (trail_html n M1 N) as [l Hl]. split; [|exact Cr]. exists l. split; [exact Hl|]. intro Ne.
    eapply (gt_trailing _ _ _ _ _ _ _ G); [reflexivity|split; [eexists; exact Hl|split; assumption]|exact Hl|].
    destruct (main_part rest) as [|m r] eqn:Mr; [congruence|]. assert (I : In m (main_part rest)) by (rewrite Mr; left; reflexivity). apply main_in in I. destruct I as [I Im].
    rewrite Forall_forall in M2. destruct (trail_html m (M2 m I) Im) as [l' Hm]. eauto. }
  assert (Lt : find_trailing_html_blocks (pre0 ++ cs) <= List.length (pre0 ++ cs)) by (unfold find_trailing_html_blocks; clear; lia). rewrite app_length in Lt.
  apply (Z _ (firstn (find_trailing_html_blocks (pre0 ++ cs) - List.length pre0) cs)); [symmetry; apply firstn_skipn|]. rewrite firstn_length. clear - Lt. lia.
Qed.

(** The start of a run. *)
Lemma root_start : forall p cs ws m1, collect_reference_lines (Node NDocument p cs) (set_warnings ws init_st) = Ok m1 ->
  ready m1 [] /\ ctx_at (At 0 0 0) (cx m1) /\ output m1 = [] /\ f_emitted (footnotes m1) = [] /\ f_pending (footnotes m1) = []
  /\ pending_references m1 = [] /\ f_pending_references (footnotes m1) = [] /\ trace m1 = [].
Proof.
  intros p cs ws m1 El. pose proof (lines_keep _ _ _ El) as (L1 & L2 & L3 & L4 & L5).
  assert (L6 : output m1 = [] /\ f_collecting (footnotes m1) = false /\ proper_nouns m1 = [] /\ common_nouns m1 = [] /\ f_emitted (footnotes m1) = [] /\ trace m1 = []).
  { assert (Z : forall n s s', collect_reference_lines n s = Ok s' -> output s' = output s /\ f_collecting (footnotes s') = f_collecting (footnotes s)
      /\ proper_nouns s' = proper_nouns s /\ common_nouns s' = common_nouns s /\ f_emitted (footnotes s') = f_emitted (footnotes s) /\ trace s' = trace s).
    { clear. induction n as [v p cs IH] using node_ind'. intros s s' E. cbn [collect_reference_lines] in E. apply seqa_ok in E. destruct E as (m & E1 & E2).
      assert (A : output m = output s /\ f_collecting (footnotes m) = f_collecting (footnotes s) /\ proper_nouns m = proper_nouns s /\ common_nouns m = common_nouns s /\ f_emitted (footnotes m) = f_emitted (footnotes s) /\ trace m = trace s).
      { destruct v; injection E1 as <-; auto 10. cbv zeta. destruct (assoc_str _ _); auto 10. }
      clear E1. revert m E2 A. induction IH as [|c cs Hc H IH2]; intros m E2 A; [injection E2 as <-; exact A|].
      cbn [map] in E2. rewrite all_cons in E2. apply seqa_ok in E2. destruct E2 as (m2 & E2 & E3). apply Hc in E2. apply (IH2 _ E3).
      destruct A as (? & ? & ? & ? & ? & ?), E2 as (? & ? & ? & ? & ? & ?). repeat split; congruence. }
    destruct (Z _ _ _ El) as (Z1 & Z2 & Z3 & Z4 & Z5 & Z6). rewrite Z1, Z2, Z3, Z4, Z5, Z6. auto 10. }
  destruct L6 as (O1 & Co & Pn & Cn & Em & Tr). split; [|split; [|split; [exact O1|split; [exact Em|split; [rewrite L5; reflexivity|split; [rewrite L3; reflexivity|split; [rewrite L4; reflexivity|exact Tr]]]]]]].
  - constructor; [split; [exact Co|rewrite L3; intros k r []]|rewrite L5; constructor|rewrite L5; constructor|rewrite L5; constructor|rewrite L4; constructor|rewrite L1; reflexivity|exact Pn|exact Cn].
  - rewrite L2. constructor; try reflexivity. split; reflexivity.
Qed.

(** The whole document. *)
Theorem structure_document : forall p cs s',
  serialize_root U PN ENT o B src ends_nl checks (Node NDocument p cs) = Ok s' ->
  good_document U PN ENT o B src cs ->
  exists ls bs, output s' = text_of ls /\ Forall (Forall line_char) ls /\ reads ls bs /\ same_document U PN ENT o B src cs bs
    /\ def_blocks bs = map define_of (defs (trace s'))
    /\ (hd [] ls = lit "---" -> begins_with_rule cs /\ rule_line o = lit "---")
    /\ (notes_last cs -> (exists n, In n cs /\ ~ may_trail n) -> exists w hs, ends_in_html cs w hs /\ arranged U PN ENT o B src hs None w ls).
Proof.
  intros p cs s' E G. apply root_steps in E. destruct E as (ws & m1 & m2 & _ & El & En & Er).
  destruct (root_start _ _ _ _ El) as (R1 & Cx & O1 & Em & L5 & _ & _ & T1).
  pose proof (gt_children _ _ _ _ _ _ _ G) as F.
  destruct (notes_ready _ _ _ _ En F R1 Cx) as (R2 & C2 & O2 & T2); [rewrite L5; exact (gt_names _ _ _ _ _ _ _ G)|exact Em|]. cbn [app] in R2.
  set (tail := skipn (find_trailing_html_blocks cs) cs) in *.
  assert (Ft : Forall usual tail). { rewrite <- (firstn_skipn (find_trailing_html_blocks cs) cs) in F. apply Forall_app in F. apply F. }
  assert (Ew : forall w, early cs w -> w ++ main_part tail = main_part cs).
  { intros w H. pose proof (early_main cs w [] H) as Q. cbn [app List.length] in Q. rewrite Nat.sub_0_r in Q. exact Q. }
  pose proof (good_commented [] cs G) as Gc. cbn [app List.length] in Gc. rewrite Nat.sub_0_r in Gc.
  destruct (document_run _ _ _ _ _ Er (note_part cs) Ft Gc F ltac:(discriminate)) as (w & ls & bs & ns & ds & Ea & (Td & Db) & O & Ch & On & Sm & Pm & Sn & _ & Hr & La); [|exact R2| |].
  - intros w H. rewrite (Ew w H). exact (gt_apart _ _ _ _ _ _ _ G).
  - rewrite C2. exact Cx.
  - exists ls, bs. split; [rewrite O, O2, O1; reflexivity|]. split; [exact Ch|]. split; [exact (on_reads _ _ On)|].
    rewrite T2, T1 in Td. cbn [defs flat_map app] in Td.
    split; [|split; [rewrite Td; exact Db|split; [exact (Hr eq_refl ltac:(rewrite O2; exact O1))|]]].
    2:{ intros Nl (n & I & Nt). exists w, (main_part tail). split.
      - split; [symmetry; exact (Ew w Ea)|]. split; [|exact (early_last _ _ Ea)]. pose proof (tail_html [] cs) as Th. cbn [app List.length] in Th. rewrite Nat.sub_0_r in Th. exact Th.
      - apply La; [exact Nl|]. right. split; [reflexivity|]. intro Q. apply Nt. pose proof (early_nil _ _ Ea Q) as M. rewrite Forall_forall in M. exact (M n I). }
    rewrite (Ew w Ea) in Sm. split; [exact Sm|]. exists ns. split; assumption.
Qed.

(** ** Front matter *)
Definition section_start (n : node) : bool := match heading_level n with Some 2 | Some 3 => true | _ => false end.
Lemma flush_none : forall before s, f_pending (footnotes s) = [] -> pending_references s = [] -> f_pending_references (footnotes s) = [] -> flush_all U o checks before s = Ok s.
Proof.
  intros before s H1 H2 H3. unfold flush_all, seqa, flush_footnotes_before, get. rewrite H1. cbn [is_nil nop rbind].
  unfold flush_references, get. rewrite H2. cbn [is_nil nop rbind]. unfold flush_footnote_references_before, get. rewrite H3. reflexivity.
Qed.
Lemma front_run : forall tail content q ics cs s s', doc_run U PN ENT o B src ends_nl checks tail (Some (Node (NFrontMatter content) q ics)) cs s s' ->
  (match cs with n :: _ => section_start n = false | [] => True end)
  \/ (f_pending (footnotes s) = [] /\ pending_references s = [] /\ f_pending_references (footnotes s) = []) ->
  Forall usual cs -> doc_run U PN ENT o B src ends_nl checks tail None cs s s'.
Proof.
  intros tail content q ics cs s s' R H Us. inversion R as [? ? m ? E1 E2|? n cs' ? ? N R'|? n cs' ? ? T R'|? n l cs' ? ? D Hl E|? n d l cs' ? m ? D Nd Hl E R'|? n cs' ? m ? Or E R']; subst.
  - eapply dr_end; eassumption.
  - apply dr_note; assumption.
  - apply dr_trailing; assumption.
  - eapply dr_file; eassumption.
  - exfalso. inversion Us as [|? ? G F']; subst. assert (Nn : ~ note_definition n) by (intros [x Q]; unfold html_literal in Hl; congruence). apply (usual_good n G) in Nn. apply good_sorts in Nn. destruct Nn as (_ & K & _). exact (K _ D).
  - eapply dr_block; [exact Or| |exact R']. unfold document_block in *. change (block_separator None n) with (@nil char). change (block_separator (Some (Node (NFrontMatter content) q ics)) n) with (@nil char) in E.
    apply seqa_ok in E. destruct E as (m1 & E1 & E2).
    assert (m1 = s).
    { destruct H as [H|(H1 & H2 & H3)].
      - unfold section_start in H. destruct (heading_level n) as [[|[|[|[|?]]]]|]; try discriminate H; injection E1 as <-; reflexivity.
      - destruct (heading_level n) as [[|[|[|[|?]]]]|]; try (injection E1 as <-; reflexivity); rewrite flush_none in E1 by assumption; injection E1 as <-; reflexivity. }
    subst m1. destruct (heading_level n) as [[|[|[|[|?]]]]|]; exact E2.
Qed.
Theorem structure_fronted : forall p q ics content cs s',
  serialize_root U PN ENT o B src ends_nl checks (Node NDocument p (Node (NFrontMatter content) q ics :: cs)) = Ok s' ->
  good_document U PN ENT o B src cs ->
  (match cs with n :: _ => section_start n = false | [] => True end) \/ note_part cs = [] ->
  exists ls bs, output s' = trim content ++ [c_nl; c_nl] ++ text_of ls /\ Forall (Forall line_char) ls /\ reads ls bs /\ same_document U PN ENT o B src cs bs
    /\ def_blocks bs = map define_of (defs (trace s'))
    /\ (notes_last cs -> (exists n, In n cs /\ ~ may_trail n) -> exists w hs, ends_in_html cs w hs /\ arranged U PN ENT o B src hs None w ls).
Proof.
  intros p q ics content cs s' E G Hs. set (fm := Node (NFrontMatter content) q ics) in *. apply root_steps in E. destruct E as (ws & m1 & m2 & _ & El & En & Er).
  destruct (root_start _ _ _ _ El) as (R1 & Cx & O1 & Em & L5 & L3 & L4 & T0).
  assert (Nn : ~ note_definition fm) by (intros [x Q]; discriminate Q).
  assert (En' : notes_run U PN ENT o B src ends_nl checks cs m1 m2) by (inversion En; subst; [contradiction|assumption]). clear En.
  pose proof (gt_children _ _ _ _ _ _ _ G) as F.
  destruct (notes_ready _ _ _ _ En' F R1 Cx) as (R2 & C2 & O2 & T2); [rewrite L5; exact (gt_names _ _ _ _ _ _ _ G)|exact Em|]. cbn [app] in R2.
  inversion Er as [|? n cs' ? ? N R'|? n cs' ? ? T R'|? n l cs' ? ? D Hl E|? n d l cs' ? m ? D Nd Hl E R'|? n cs' ? m ? Or E R']; subst;
    try contradiction; try (destruct T as [[l T] _]; discriminate T); try discriminate Hl.
  unfold document_block in E. apply seqa_ok in E. destruct E as (y1 & E1 & E). injection E1 as <-. apply seqa_ok in E. destruct E as (y2 & E2 & E3). injection E2 as <-.
  unfold get in E3. cbn [skip set_output] in E3. rewrite (rd_skip _ _ R2) in E3. injection E3 as <-.
  match type of R' with doc_run _ _ _ _ _ _ _ _ _ _ _ ?z _ => set (y := z) in * end.
  set (T := find_trailing_html_blocks (fm :: cs)) in *.
  assert (T1 : 1 <= T).
  { destruct T as [|t] eqn:Q; [|clear; lia]. exfalso. assert (M : Forall may_trail (fm :: cs)) by (apply (trailing_from []); cbn [app List.length]; fold T; rewrite Q; clear; lia).
    apply Forall_inv in M. apply DocProof.may_trail_iff in M. discriminate M. }
  assert (Et : skipn T (fm :: cs) = skipn (T - 1) cs) by (destruct T as [|t]; [clear - T1; lia|]; replace (S t - 1) with t by (clear; lia); reflexivity).
  rewrite Et in R'. set (tail := skipn (T - 1) cs) in *.
  assert (Ft : Forall usual tail). { unfold tail. rewrite <- (firstn_skipn (T - 1) cs) in F. apply Forall_app in F. apply F. }
  assert (Ew : forall w, early cs w -> w ++ main_part tail = main_part cs).
  { intros w H. exact (early_main cs w [fm] H). }
  pose proof (good_commented [fm] cs G) as Gc. cbn [app List.length] in Gc. fold T in Gc. fold tail in Gc.
  assert (Rr : doc_run U PN ENT o B src ends_nl checks tail None cs y s').
  { eapply front_run; [exact R'| |exact F]. destruct Hs as [Hs|Hs]; [left; exact Hs|]. right.
    assert (Q : m2 = m1). { clear - En' Hs. induction En' as [|n cs s m s' N E R IH|n cs s s' N R IH]; [reflexivity| |].
      - unfold note_part in Hs. cbn [filter] in Hs. rewrite (proj2 (is_note_iff n) N) in Hs. discriminate.
      - apply IH. unfold note_part in *. cbn [filter] in Hs. rewrite (is_note_false n N) in Hs. exact Hs. }
    unfold y. cbn. rewrite Q. auto. }
  assert (Ry : ready y (note_part cs)) by (destruct R2; constructor; assumption).
  destruct (document_run _ _ _ _ _ Rr (note_part cs) Ft Gc F ltac:(discriminate)) as (w & ls & bs & ns & ds & Ea & (Td & Db) & O & Ch & On & Sm & Pm & Sn & _ & _ & La); [|exact Ry| |].
  - intros w H. rewrite (Ew w H). exact (gt_apart _ _ _ _ _ _ _ G).
  - change (cx y) with (cx m2). rewrite C2. exact Cx.
  - exists ls, bs. split; [rewrite O; unfold y; cbn [output set_output]; rewrite O2, O1; cbn [app block_separator]; rewrite <- !app_assoc; reflexivity|]. split; [exact Ch|]. split; [exact (on_reads _ _ On)|].
    unfold y in Td. cbn [trace set_output] in Td. rewrite T2, T0 in Td. cbn [defs flat_map app] in Td.
    split; [|split; [rewrite Td; exact Db|]].
    2:{ intros Nl (n & I & Nt). exists w, (main_part tail). split.
      - split; [symmetry; exact (Ew w Ea)|]. split; [exact (tail_html [fm] cs)|exact (early_last _ _ Ea)].
      - apply La; [exact Nl|]. right. split; [reflexivity|]. intro Q. apply Nt. pose proof (early_nil _ _ Ea Q) as M. rewrite Forall_forall in M. exact (M n I). }
    rewrite (Ew w Ea) in Sm. split; [exact Sm|]. exists ns. split; assumption.
Qed.
End Doc.
