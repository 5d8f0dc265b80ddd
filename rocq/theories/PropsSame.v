(** C39: punctuation settings and code. *)
From Coq Require Import Bool Arith NArith Lia ZifyBool ZifyNat ZifyN String List.
From Verif Require Import Base BaseFacts EscapeModel OptsModel PunctModel WrapModel CodeModel TableModel HeadingModel AstModel StateModel
  InlineModel WarnModel SerModel SpecState SpecContext SpecDoc StateProof SerFacts ContextProof PropsContext DocProof PropsDoc DocRun
  SpecSame SameProof CarryProof.
Import ListNotations.

(** ** What is logged as code is the code of the tree *)
Lemma picked_all : forall A (l : list A), picked l l.
Proof. induction l; constructor; assumption. Qed.
Lemma picked_none : forall A (l : list A), picked [] l.
Proof. induction l; constructor; assumption. Qed.
Lemma picked_app : forall A (a b c d : list A), picked a b -> picked c d -> picked (a ++ c) (b ++ d).
Proof. intros A a b c d H K. induction H; cbn [app]; [exact K|constructor; assumption|constructor; assumption]. Qed.

Section Spans.
Variable U : Uni.
Variable ENT : str -> option str.
Variable o : Options.
Variable src : list str.
(** [xs] are written forms of members of [all], of every one if [whole]. *)
Definition forms (whole : Prop) (all : list (sourcepos * str)) (xs : list str) : Prop :=
  exists l, picked l all /\ Forall2 (span_written src) l xs /\ (whole -> l = all).
Definition wforms (whole : Prop) (all : list (sourcepos * str)) (w : W) : Prop :=
  forall x evs, w = Ok (x, evs) -> forms whole all (span_codes evs).
Lemma forms_nil : forall P, forms P [] [].
Proof. intro P. exists []. repeat split; constructor. Qed.
Lemma forms_lost : forall (P : Prop) all, ~ P -> forms P all [].
Proof. intros P all N. exists []. split; [apply picked_none|]. split; [constructor|]. intro H. contradiction. Qed.
Lemma forms_app : forall (P Q : Prop) a b x y, forms P a x -> forms Q b y -> forms (P /\ Q) (a ++ b) (x ++ y).
Proof.
  intros P Q a b x y (l & A1 & A2 & A3) (m & B1 & B2 & B3). exists (l ++ m). split; [apply picked_app; assumption|].
  split; [apply Forall2_app; assumption|]. intros [p q]. rewrite A3, B3 by assumption. reflexivity.
Qed.
Lemma forms_weak : forall (P Q : Prop) a x, (Q -> P) -> forms P a x -> forms Q a x.
Proof. intros P Q a x I (l & A1 & A2 & A3). exists l. auto. Qed.
Lemma wforms_ret : forall P x, wforms P [] (wret x).
Proof. intros P x y e E. injection E as <- <-. apply forms_nil. Qed.
Lemma wforms_use : forall P t l u i, wforms P [] (wuse t l u i).
Proof. intros P t l u i y e E. injection E as <- <-. apply forms_nil. Qed.
Lemma wforms_app : forall P Q a b v w, wforms P a v -> wforms Q b w -> wforms (P /\ Q) (a ++ b) (wapp v w).
Proof.
  intros P Q a b [[x e]|] [[y f]|] V W z g E; try discriminate. injection E as <- <-. rewrite span_codes_app.
  apply forms_app; [eapply V|eapply W]; reflexivity.
Qed.
Lemma wforms_ends : forall P a v x y, wforms P a v -> wforms P a (wapp (wret x) (wapp v (wret y))).
Proof.
  intros P a [[z e]|] x y V u g E; [|discriminate]. injection E as <- <-. cbn [snd app]. rewrite app_nil_r. eapply V. reflexivity.
Qed.
Lemma wforms_rbind : forall A (r : res A) P a f, (forall x, wforms P a (f x)) -> wforms P a (rbind r f).
Proof. intros A [x|] P a f H; [apply H|]. intros y e E. discriminate E. Qed.
Lemma wforms_weak : forall (P Q : Prop) a w, (Q -> P) -> wforms P a w -> wforms Q a w.
Proof. intros P Q a w I H x e E. eapply forms_weak; [exact I|]. eapply H. exact E. Qed.
Lemma wforms_lost : forall (P : Prop) a w, ~ P -> (forall x e, w = Ok (x, e) -> span_codes e = []) -> wforms P a w.
Proof. intros P a w N H x e E. rewrite (H _ _ E). apply forms_lost. exact N. Qed.
Lemma wforms_bind : forall P a v f, wforms P a v -> (forall x y e, f x = Ok (y, e) -> span_codes e = []) -> wforms P a (wbind v f).
Proof.
  intros P a [[x e]|] f V H y g E; [|discriminate]. cbn [wbind rbind fst snd] in E. destruct (f x) as [[z h]|] eqn:F; [|discriminate].
  cbn [rbind fst snd] in E. injection E as <- <-. rewrite span_codes_app, (H _ _ _ F), app_nil_r. eapply V. reflexivity.
Qed.
Lemma code_span_literal : forall p literal, span_written src (p, literal) (format_code_span literal).
Proof.
  intros p literal. unfold format_code_span. cbv zeta. unfold repc.
  destruct (match literal with [] => false | first :: _ => ceq first c_bt || ceq (last literal Base.c_nul) c_bt end).
  - apply written_literal. right. reflexivity.
  - apply (written_literal src p literal _ []). left. reflexivity.
Qed.
Lemma wforms_code : forall P p literal, wforms P [(p, literal)] (inline_code src p literal).
Proof.
  intros P p literal x e E. unfold inline_code in E. destruct (extract_source src p) as [s|] eqn:S; [|discriminate].
  cbn [rbind] in E. injection E as <- <-. exists [(p, literal)]. split; [apply picked_all|]. split; [|reflexivity].
  constructor; [|constructor]. destruct s as [y|]; [|apply code_span_literal].
  destruct (is_valid_code_span y && negb (contains_char c_nl y)); [apply written_source; exact S|apply code_span_literal].
Qed.
Lemma unlinked_below : forall v p cs c, In c cs -> unlinked (Node v p cs) -> unlinked c.
Proof. intros v p cs c I H m Wm. apply H. eapply within_below; eassumption. Qed.
Lemma reference_codes : forall open t l u i x e, format_reference open t l u i = Ok (x, e) -> span_codes e = [].
Proof.
  intros open t l u i x e E. unfold format_reference in E. destruct (strip_prefix [c_soh] l); [injection E as _ <-; reflexivity|].
  destruct (seqb t l); injection E as _ <-; reflexivity.
Qed.
Lemma wforms_inline : forall n next, wforms (unlinked n) (code_spans n) (collect_inline U ENT o src next n).
Proof.
  induction n as [v p cs IH] using node_ind'. intro next.
  assert (K : wforms (unlinked (Node v p cs)) (flat_map code_spans cs) (wcat (with_next (collect_inline U ENT o src) cs))).
  { assert (H : Forall (fun c => forall nx, wforms (unlinked (Node v p cs)) (code_spans c) (collect_inline U ENT o src nx c)) cs).
    { rewrite Forall_forall in *. intros c I nx. eapply wforms_weak; [|apply (IH c I)]. intro H. eapply unlinked_below; eassumption. }
    generalize dependent (unlinked (Node v p cs)). clear IH. intros P H. induction H as [|c cs H HS IH]; cbn [with_next]; [apply wforms_ret|].
    cbn [flat_map wcat fold_right]. eapply wforms_weak; [|apply wforms_app; [apply H|apply IH]]. auto. }
  assert (L : forall u t, v = NLink u t -> ~ unlinked (Node v p cs)) by (intros u t -> H; exact (proj1 (H _ (within_here _)) u t eq_refl)).
  assert (M : forall u t, v = NImage u t -> ~ unlinked (Node v p cs)) by (intros u t -> H; exact (proj2 (H _ (within_here _)) u t eq_refl)).
  cbn [collect_inline]. cbv zeta. destruct v; cbn [code_spans]; try exact K; try apply wforms_ret; try apply wforms_code.
  - unfold inline_text. cbv zeta. apply wforms_rbind. intros [x|]; apply wforms_ret.
  - apply wforms_rbind. intro d. apply wforms_ends. exact K.
  - apply wforms_rbind. intro d. apply wforms_ends. exact K.
  - apply wforms_rbind. intros [[t l]|].
    + destruct (existsb is_image cs).
      * intros x e E. destruct (wcat (with_next (collect_inline U ENT o src) cs)) as [[y f]|]; [|discriminate]. injection E as <- <-.
        cbn [app snd]. rewrite span_codes_app. cbn [span_codes]. rewrite app_nil_r. eapply K. reflexivity.
      * apply wforms_lost; [eapply L; reflexivity|]. intros x e. apply reference_codes.
    + destruct (existsb is_image cs); [apply wforms_ends; exact K|].
      destruct (_ && _); [apply wforms_lost; [eapply L; reflexivity|intros x e E; injection E as _ <-; reflexivity]|].
      destruct (is_external_url url); (apply wforms_bind; [exact K|]); intros x y e E; injection E as _ <-; reflexivity.
  - apply wforms_rbind. intros [[t l]|].
    + apply wforms_lost; [eapply M; reflexivity|]. intros x e. apply reference_codes.
    + apply wforms_bind; [exact K|]. intros x y e E. injection E as _ <-; reflexivity.
Qed.

(** Writing inline content logs written forms of the code spans below, in
    order; of all of them where there are no links and images. *)
Theorem C39_spans : forall n s s', inline (inline_content U ENT o src n) emit s = Ok s' ->
  exists l xs, codes (trace s') = codes (trace s) ++ xs /\ Forall2 (span_written src) l xs
    /\ picked l (flat_map code_spans (node_children n)) /\ (unlinked n -> l = flat_map code_spans (node_children n)).
Proof.
  intros n s s' E. unfold inline in E. destruct (inline_content U ENT o src n) as [[x evs]|] eqn:C; [|discriminate].
  apply seqa_ok in E. destruct E as (m & E1 & E2). destruct (events_trace evs s) as (m' & E1' & T & _). rewrite E1' in E1. injection E1 as <-.
  assert (K : forms (unlinked n) (flat_map code_spans (node_children n)) (span_codes evs)).
  { unfold inline_content in C. revert C. apply (fun H : wforms _ _ _ => H x evs). destruct n as [v p cs]. cbn [node_children].
    assert (H : Forall (fun c => forall nx, wforms (unlinked (Node v p cs)) (code_spans c) (collect_inline U ENT o src nx c)) cs).
    { apply Forall_forall. intros c I nx. eapply wforms_weak; [|apply wforms_inline]. intro H. eapply unlinked_below; eassumption. }
    generalize dependent (unlinked (Node v p cs)). intros P H. clear T E2 E1'. induction H as [|c cs H HS IH]; cbn [with_next]; [apply wforms_ret|].
    cbn [flat_map wcat fold_right]. eapply wforms_weak; [|apply wforms_app; [apply H|apply IH]]. auto. }
  destruct K as (l & K1 & K2 & K3). exists l, (span_codes evs). repeat split; auto. rewrite <- T. injection E2 as <-. reflexivity.
Qed.
End Spans.

(** ** Two runs *)
Section Two.
Variable U : Uni.
Variable PN : list (str * str).
Variable ENT : str -> option str.
Variable B : backend.
Variable src : list str.
Variable ends_nl : bool.
Variable checks : bool.

(** The second run ends as the first one does, having written the same code,
    called the same formatters and given the same warnings. *)
Theorem C39_same_code : forall o p n s, differ_in_punctuation o p ->
  serialize_root U PN ENT o B src ends_nl checks n = Ok s ->
  exists t, serialize_root U PN ENT p B src ends_nl checks n = Ok t
    /\ codes (trace t) = codes (trace s) /\ calls t = calls s /\ warnings t = warnings s.
Proof.
  intros o p n s D E. rewrite (differ_with _ _ D). unfold serialize_root in *.
  pose proof (rel_serialize U PN ENT o (punct_of p) B src ends_nl checks n None init_st init_st (agree_refl _)) as R.
  rewrite E in R. destruct (serialize _ _ _ (with_punct _ _) _ _ _ _ _ _ _) as [t|]; [|contradiction]. exists t. split; [reflexivity|].
  destruct R as (_ & _ & R1 & R2 & _ & _ & _ & R3). auto.
Qed.
Theorem C39_same_panic : forall o p n, differ_in_punctuation o p ->
  serialize_root U PN ENT o B src ends_nl checks n = Panic -> serialize_root U PN ENT p B src ends_nl checks n = Panic.
Proof.
  intros o p n D E. rewrite (differ_with _ _ D). unfold serialize_root in *.
  pose proof (rel_serialize U PN ENT o (punct_of p) B src ends_nl checks n None init_st init_st (agree_refl _)) as R.
  rewrite E in R. destruct (serialize _ _ _ (with_punct _ _) _ _ _ _ _ _ _) as [t|]; [contradiction|reflexivity].
Qed.

Lemma collect_lines_trace : forall n s s', collect_reference_lines n s = Ok s' -> trace s' = trace s /\ cx s' = cx s.
Proof.
  induction n as [v p cs IH] using node_ind'. intros s s' E. cbn [collect_reference_lines] in E. apply seqa_ok in E. destruct E as (m & E1 & E2).
  assert (M : trace m = trace s /\ cx m = cx s).
  { destruct v; try (injection E1 as <-; split; reflexivity). unfold record_reference_line, upd in E1. injection E1 as <-.
    cbv zeta. destruct (assoc_str _ _); split; reflexivity. }
  destruct M as [<- <-]. clear E1. revert m E2. induction IH as [|c cs H HS IH]; intros m E; cbn [map] in E; [injection E as <-; split; reflexivity|].
  rewrite all_cons in E. apply seqa_ok in E. destruct E as (k & E1 & E2). destruct (H _ _ E1) as [<- <-]. apply IH. exact E2.
Qed.

Definition notes_act (o : Options) (cs : list node) : act :=
  all (map (fun ca : node * act => if is_footnote_def (fst ca) then snd ca else nop)
         (combine cs (with_next (serialize U PN ENT o B src ends_nl checks) cs))).
Lemma hidden_nil : forall q t, ctx_ok q t (cx init_st).
Proof. intros q t. repeat split. Qed.
Lemma notes_ctx : forall o cs m s q t, ctx_ok q t (cx m) -> notes_run U PN ENT o B src ends_nl checks cs m s -> ctx_ok q t (cx s).
Proof.
  intros o cs m s q t C H. induction H; auto. apply IHnotes_run. match goal with E : serialize _ _ _ _ _ _ _ _ _ _ _ = Ok _ |- _ => apply serialize_same_place in E; destruct E end.
  unfold ctx_ok in *. congruence.
Qed.
Lemma notes_none : forall o cs m s, Forall (fun c => ~ note_definition c) cs -> notes_run U PN ENT o B src ends_nl checks cs m s -> s = m.
Proof.
  intros o cs m s N H. induction H; [reflexivity| |].
  - inversion N; subst. contradiction.
  - inversion N; subst. auto.
Qed.
Lemma next_in : forall A (f : option node -> node -> A) cs c b, In (c, b) (combine cs (with_next f cs)) -> exists nx, b = f nx c.
Proof.
  intros A f cs c b. induction cs as [|d cs IH]; cbn [with_next combine]; intro I; [destruct I|]. destruct I as [I|I]; [|auto].
  injection I as <- <-. eexists. reflexivity.
Qed.
(** The steps of a run: [a] after the footnote definitions. *)
Lemma two_phases : forall o pos cs s, heading_sentence_case o = false ->
  (forall c, In c cs -> ~ note_definition c -> ~ has_notes c) ->
  serialize_root U PN ENT o B src ends_nl checks (Node NDocument pos cs) = Ok s ->
  exists ws m a, check_undefined checks src (Node NDocument pos cs) = Ok ws
    /\ collect_reference_lines (Node NDocument pos cs) (set_warnings ws init_st) = Ok m
    /\ notes_act o cs m = Ok a
    /\ (Forall (fun c => ~ note_definition c) cs -> codes (trace a) = [])
    /\ forall quotes tables, quotes_ok quotes (Node NDocument pos cs) -> tables_ok tables (Node NDocument pos cs) ->
       exists l, codes (trace s) = codes (trace a) ++ l /\ carries quotes tables l (output s).
Proof.
  intros o pos cs s Plain N E. unfold serialize_root in E. cbn [serialize] in E. cbv zeta in E. unfold document in E. cbv zeta in E.
  destruct (check_undefined checks src (Node NDocument pos cs)) as [ws|] eqn:W; [|discriminate].
  apply seqa_ok in E. destruct E as (m0 & E0 & E). apply seqa_ok in E. destruct E as (m & E1 & E). apply seqa_ok in E. destruct E as (a & E2 & E3).
  injection E0 as <-. destruct (collect_lines_trace _ _ _ E1) as [T C]. exists ws, m, a.
  split; [reflexivity|]. split; [exact E1|]. split; [exact E2|]. pose proof (notes_steps _ _ _ _ _ _ _ _ _ _ _ E2) as R. split.
  - intro F. rewrite (notes_none _ _ _ _ F R), T. reflexivity.
  - intros q t Q H.
    assert (Ca : ctx_ok q t (cx a)) by (eapply notes_ctx; [|exact R]; rewrite C; apply hidden_nil).
    match type of E3 with ?act _ = _ => assert (K : carry q t act) end.
    { apply carry_document_loop.
      - apply Forall_forall. intros [c b] I F. cbn [fst snd] in *.
        assert (Ic : In c cs) by (apply in_combine_l in I; exact I).
        assert (NH : ~ has_notes c) by (apply N; [exact Ic|]; intro X; apply note_iff in X; congruence).
        destruct (below NDocument pos cs c Ic) as (X & Y & _).
        assert (G : forall nx, carry q t (serialize U PN ENT o B src ends_nl checks nx c)).
        { intro nx. apply carry_serialize; [exact Plain|intro Z; apply Q, X, Z|intro Z; apply H, Y, Z|exact NH]. }
        destruct (next_in _ _ _ _ _ I) as [nx ->]. apply G.
      - apply carry_seq; [apply carry_flush_all|apply carry_output_trailing]. }
    destruct (K _ _ Ca E3) as (_ & x & l & O & L & P). exists l. split; [exact L|]. rewrite O.
    unfold carries, bare in *. rewrite filter_app. apply laced_l. exact P.
Qed.

(** Two runs with the same options but for the punctuation settings write the
    same code, in the same order; without sentence case each output holds it
    unchanged, up to what the layout does to it ([layout_mark]).  [notes] is the
    code in footnotes, which is not followed to the place where it is written. *)
Theorem C39_code_partial : forall o p pos cs s,
  differ_in_punctuation o p -> heading_sentence_case o = false ->
  (forall c, In c cs -> ~ note_definition c -> ~ has_notes c) ->
  serialize_root U PN ENT o B src ends_nl checks (Node NDocument pos cs) = Ok s ->
  exists t notes l, serialize_root U PN ENT p B src ends_nl checks (Node NDocument pos cs) = Ok t
    /\ warnings t = warnings s /\ calls t = calls s
    /\ codes (trace s) = notes ++ l /\ codes (trace t) = notes ++ l
    /\ (Forall (fun c => ~ note_definition c) cs -> notes = [])
    /\ forall quotes tables, (has_quotes (Node NDocument pos cs) -> quotes = true) -> (has_tables (Node NDocument pos cs) -> tables = true) ->
       carries quotes tables l (output s) /\ carries quotes tables l (output t).
Proof.
  intros o p pos cs s D Plain N E. destruct (C39_same_code o p _ s D E) as (t & E' & C & K & W).
  assert (Plain' : heading_sentence_case p = false) by (destruct D as (_&_&_&<-&_); exact Plain).
  destruct (two_phases o pos cs s Plain N E) as (ws & m & a & W1 & M1 & A1 & N1 & L1).
  destruct (two_phases p pos cs t Plain' N E') as (ws' & m' & a' & W2 & M2 & A2 & N2 & L2).
  rewrite W1 in W2. injection W2 as <-. rewrite M1 in M2. injection M2 as <-.
  assert (R : rel (notes_act o cs) (notes_act p cs)).
  { rewrite (differ_with _ _ D). unfold notes_act. clear. apply rel_all.
    assert (H := krel_next (serialize U PN ENT o B src ends_nl checks) (serialize U PN ENT (with_punct o (punct_of p)) B src ends_nl checks) cs).
    specialize (H (proj2 (Forall_forall _ _) (fun c _ nx => rel_serialize U PN ENT o (punct_of p) B src ends_nl checks c nx))).
    induction H as [|[x b] [y c] k k' [X Y] H IH]; cbn [map]; constructor; [|exact IH]. cbn [fst snd] in *. subst y.
    destruct (is_footnote_def x); [exact Y|apply rel_nop]. }
  specialize (R m m (agree_refl _)). rewrite A1, A2 in R. destruct R as (_&_&_&_&_&_&_&Q).
  destruct (L1 true true (fun _ => eq_refl) (fun _ => eq_refl)) as (l & S1 & _).
  exists t, (codes (trace a)), l. split; [exact E'|]. split; [exact W|]. split; [exact K|]. split; [exact S1|]. split; [congruence|].
  split; [exact N1|]. intros q u QH TH. destruct (L1 q u QH TH) as (l1 & X1 & Y1). destruct (L2 q u QH TH) as (l2 & X2 & Y2).
  assert (l1 = l) as -> by (eapply app_inv_head; rewrite <- X1; exact S1).
  assert (l2 = l) as -> by (rewrite <- Q in X2; eapply app_inv_head; rewrite <- X2, C; exact S1). split; assumption.
Qed.
End Two.


(** ** Examples *)
Definition pos39 (a b c d : nat) := mkPos a b c d.
Definition opts39 (sentence curly : bool) : Options :=
  mkOptions 80 true true sentence [] [] UHyphen 1 2 4 OPeriod OParenthesis PadStart 4 FTilde 4 true []
    default_thematic_break_style 3 curly curly curly curly (if curly then DPattern (lit "--") else DDisabled) DDisabled [].
Lemma differ39 : forall b, differ_in_punctuation (opts39 b true) (opts39 b false).
Proof. intro b. repeat split. Qed.
Definition run39 (o : Options) (src : list str) (cs : list node) : res st :=
  serialize_root uni_ascii [] (fun _ => None) o (Wasm None) src true true (Node NDocument (pos39 1 1 9 9) cs).

(** A paragraph with text and a code span, then a code block in a quote. *)
Definition src39 : list str := [lit "say ""hi"" ... `let s = ""x...""`"; []; lit "> ~~~~"; lit "> it's --x"; lit "> ~~~~"].
Definition tree39 : list node :=
  [Node NParagraph (pos39 1 1 1 32) [Node (NText (lit "say ""hi"" ... ")) (pos39 1 1 1 13) []; Node (NCode (lit "let s = ""x...""")) (pos39 1 14 1 29) []];
   Node NBlockQuote (pos39 3 1 5 6) [Node (NCodeBlock [] (lit "it's --x" ++ [c_nl])) (pos39 3 3 5 6) []]].
Example C39_example : exists s t, run39 (opts39 false true) src39 tree39 = Ok s /\ run39 (opts39 false false) src39 tree39 = Ok t
  /\ output s = lit "say " ++ [c_ldq] ++ lit "hi" ++ [c_rdq] ++ lit " " ++ [c_ellipsis] ++ lit " `let s = ""x...""`" ++ [c_nl; c_nl]
       ++ lit "> ~~~~" ++ [c_nl] ++ lit "> it's --x" ++ [c_nl] ++ lit "> ~~~~" ++ [c_nl]
  /\ output t = lit "say ""hi"" ... `let s = ""x...""`" ++ [c_nl; c_nl]
       ++ lit "> ~~~~" ++ [c_nl] ++ lit "> it's --x" ++ [c_nl] ++ lit "> ~~~~" ++ [c_nl]
  /\ codes (trace s) = [lit "`let s = ""x...""`"; lit "> ~~~~" ++ [c_nl] ++ lit "> it's --x" ++ [c_nl] ++ lit "> ~~~~" ++ [c_nl]].
Proof. do 2 eexists. vm_compute. repeat split. Qed.

(** With sentence case the settings do reach code: an entity that stands for a
    quotation mark becomes a curly mark, after which the source of the heading
    text is no longer followed; the entity of a backtick is then written as an
    escaped backtick, and the count of backticks by which sentence case tells
    code from text is off by one. *)
Definition head39 : list str := [lit "# &#34;x&#34; &#96; `Foo Bar`"].
Definition headtree39 : list node :=
  [Node (NHeading 1) (pos39 1 1 1 29)
     [Node (NText (lit """x"" ` ")) (pos39 1 3 1 20) []; Node (NCode (lit "Foo Bar")) (pos39 1 21 1 29) []]].
Theorem C39_sentence_case_refuted : exists src cs o p s t code,
  differ_in_punctuation o p /\ run39 o src cs = Ok s /\ run39 p src cs = Ok t
  /\ codes (trace s) = [code] /\ codes (trace t) = [code]
  /\ (exists a b, output t = a ++ code ++ b) /\ ~ carries false false [code] (output s).
Proof.
  exists head39, headtree39, (opts39 true true), (opts39 true false).
  destruct (run39 (opts39 true true) head39 headtree39) as [s|] eqn:E; [|vm_compute in E; discriminate].
  destruct (run39 (opts39 true false) head39 headtree39) as [t|] eqn:F; [|vm_compute in F; discriminate].
  exists s, t, (lit "`Foo Bar`"). split; [apply differ39|]. split; [reflexivity|]. split; [reflexivity|].
  vm_compute in E. injection E as <-. vm_compute in F. injection F as <-. split; [reflexivity|]. split; [reflexivity|]. split.
  - exists (lit "&#34;x&#34; &#96; "), ([c_nl] ++ lit "===========================" ++ [c_nl]). reflexivity.
  - unfold carries. vm_compute. intro H. inversion H as [|g c l r _ Hl Hg]; subst. clear H.
    repeat (destruct g as [|? g]; [cbn in Hg; discriminate Hg|cbn in Hg; injection Hg as _ Hg]); destruct g; discriminate Hg.
Qed.

Print Assumptions C39_spans.
Print Assumptions C39_same_code.
Print Assumptions C39_same_panic.
Print Assumptions C39_code_partial.
Print Assumptions C39_sentence_case_refuted.
