(** No white space at the ends of lines: blocks (C58). *)
From Coq Require Import Bool Arith NArith Lia ZifyBool ZifyNat ZifyN String List.
From Verif Require Import Base BaseFacts EscapeModel OptsModel WrapModel CodeModel TableModel HeadingModel AstModel StateModel
  InlineModel WarnModel SerModel SpecCode SpecWrap SpecState SpecSafe SpecEnd SpecDoc SpecTrail StateProof SerFacts SerBuilt ContextProof WrapProof CodeProof EndProof EndDoc TrailText TrailParts.
Import ListNotations.

Section Trail.
Variable U : Uni.
Variable PN : list (str * str).
Variable ENT : str -> option str.
Variable o : Options.
Variable B : backend.
Variable src : list str.
Variable ends_nl : bool.
Variable checks : bool.
Variable hard : bool.
Notation ser := (serialize U PN ENT o B src ends_nl checks).
Notation closed := (closed hard).
Notation fit := (fit hard).

Definition note_neat (f : footnote) : Prop := forall text, footnote_text U o checks f = Ok text -> fit text.
Record fine (s : st) : Prop := {
  fi_skip : skip s = SkipNone;
  fi_refs : Forall (fun kv => full_reference (snd kv)) (pending_references s);
  fi_note_refs : Forall (fun kv => full_reference (fst (snd kv))) (f_pending_references (footnotes s));
  fi_notes : Forall (fun kv => note_neat (snd kv)) (f_pending (footnotes s))
}.
(** The prefixes of the place. *)
Record here (q : bool) (c : ctx) : Prop := {
  he_prefix : one_line (blockquote_prefix c);
  he_indent : one_line (list_item_indent c);
  he_outer : one_line (blockquote_outer_indent c);
  he_quote : in_block_quote c = true -> q = true /\ inky (blockquote_prefix c)
}.
Definition does (q q' : bool) (P : str -> Prop) (a : act) : Prop :=
  forall s s', here q (cx s) -> fine s -> a s = Ok s' ->
    here q' (cx s') /\ fine s' /\ exists t, output s' = output s ++ t /\ P t.
Definition void (t : str) : Prop := t = [].

Lemma all_seq : forall x l, all (x :: l) = (x ;; all l). Proof. reflexivity. Qed.
Lemma does_seq : forall q q1 q2 (P Q R : str -> Prop) a b, does q q1 P a -> does q1 q2 Q b -> (forall x y, P x -> Q y -> R (x ++ y)) -> does q q2 R (a ;; b).
Proof.
  intros q q1 q2 P Q R a b A Bb H s s' He F E. apply seqa_ok in E. destruct E as (m & E1 & E2).
  destruct (A _ _ He F E1) as (H1 & F1 & x & O1 & X). destruct (Bb _ _ H1 F1 E2) as (H2 & F2 & y & O2 & Y).
  split; [exact H2|]. split; [exact F2|]. exists (x ++ y). rewrite O2, O1, <- app_assoc. auto.
Qed.
Lemma does_impl : forall q q' (P Q : str -> Prop) a, (forall t, P t -> Q t) -> does q q' P a -> does q q' Q a.
Proof. intros q q' P Q a H A s s' He F E. destruct (A _ _ He F E) as (H1 & F1 & t & O & T). eauto 6. Qed.
Lemma does_emit : forall q (P : str -> Prop) x, P x -> does q q P (emit x).
Proof. intros q P x X s s' He F E. injection E as <-. split; [exact He|]. split; [destruct F; split; assumption|]. exists x. auto. Qed.
Lemma does_nop : forall q, does q q void nop.
Proof. intros q s s' He F E. injection E as <-. split; [exact He|]. split; [exact F|]. exists []. rewrite app_nil_r. unfold void. auto. Qed.
Lemma does_cx : forall q q' P k, (forall c, here q c -> does q q' P (k c)) -> does q q' P (get cx k).
Proof. intros q q' P k H s s' He F E. exact (H _ He _ _ He F E). Qed.
Lemma does_get : forall A q q' P (f : st -> A) k, (forall x, does q q' P (k x)) -> does q q' P (get f k).
Proof. intros A q q' P f k H s s' He F E. exact (H _ _ _ He F E). Qed.
Lemma does_updc : forall q q' f, (forall c, here q c -> here q' (f c)) -> does q q' void (updc f).
Proof.
  intros q q' f H s s' He F E. injection E as <-. split; [apply H; exact He|]. split; [destruct F; split; assumption|].
  exists []. rewrite app_nil_r. unfold void. auto.
Qed.
(** First or last nothing. *)
Lemma does_then : forall q q1 q2 P a b, does q q1 void a -> does q1 q2 P b -> does q q2 P (a ;; b).
Proof. intros. eapply does_seq; [eassumption..|]. intros x y -> Y. exact Y. Qed.
Lemma does_last : forall q q1 q2 P a b, does q q1 P a -> does q1 q2 void b -> does q q2 P (a ;; b).
Proof. intros. eapply does_seq; [eassumption..|]. intros x y X ->. rewrite app_nil_r. exact X. Qed.
Lemma does_lead : forall q q1 a b, does q q1 one_line a -> does q1 q1 fit b -> does q q1 fit (a ;; b).
Proof. intros. eapply does_seq; [eassumption..|]. intros x y. apply line_app. Qed.
Lemma does_events : forall q evs, full_uses evs -> does q q void (all (map do_event evs)).
Proof.
  intros q evs H. induction evs as [|e evs IH]; [apply does_nop|]. cbn [map]. rewrite all_seq. apply (does_then q q q).
  - destruct e as [r|x]; intros s s' He F E; injection E as <-.
    + assert (R : full_reference r) by (apply H; left; reflexivity). destruct F as [F1 F2 F3 F4]. cbv zeta.
      destruct (f_collecting (footnotes s)); (split; [exact He|]); (split; [|exists []; rewrite app_nil_r; unfold void; auto]); split; cbn; try assumption.
      * apply (insert_all _ (fun v : reference * nat => full_reference (fst v))); assumption.
      * apply insert_all; assumption.
    + split; [exact He|]. split; [destruct F; split; assumption|]. exists []. rewrite app_nil_r. unfold void. auto.
  - apply IH. intros r J. apply H. right. exact J.
Qed.
Lemma does_inline : forall q q' P w k, (forall x evs, w = Ok (x, evs) -> full_uses evs /\ does q q' P (k x)) -> does q q' P (inline w k).
Proof.
  intros q q' P [[x evs]|] k H; [|intros s s' _ _ E; discriminate E]. destruct (H _ _ eq_refl) as [H1 H2]. cbn [inline].
  apply (does_then q q); [apply does_events; exact H1|exact H2].
Qed.
Lemma does_code : forall q (P : str -> Prop) f, (forall n, P (fst (f n))) -> does q q P (code_act f).
Proof.
  intros q P f H. apply does_get. intro n. specialize (H n). destruct (f n) as [text eff]. apply (does_then q q); [|apply (does_then q q); [|apply does_emit; exact H]];
    intros s s' He F E; injection E as <-; (split; [exact He|]); (split; [destruct F; split; assumption|]); exists []; rewrite app_nil_r; unfold void; auto.
Qed.
Lemma does_warn : forall q ws, does q q void (upd (fun s => set_warnings (warnings s ++ ws s) s)).
Proof.
  intros q ws s s' He F E. injection E as <-. split; [exact He|]. split; [destruct F; split; assumption|]. exists []. rewrite app_nil_r. unfold void. auto.
Qed.

(** ** Lists of children *)
Definition kids_do (q : bool) (P : node -> str -> Prop) (k : kids) : Prop := Forall (fun x => does q q (P (fst x)) (snd x)) k.
Lemma kids_all : forall q (P : node -> str -> Prop) cs, Forall (fun c => forall next, does q q (P c) (ser next c)) cs -> kids_do q P (combine cs (with_next ser cs)).
Proof. intros q P cs H. induction H as [|c cs Hc H IH]; [constructor|]. cbn [with_next combine]. constructor; [apply Hc|exact IH]. Qed.
Lemma children_closed : forall q (P : node -> str -> Prop) k, (forall n t, P n t -> closed t) -> kids_do q P k -> does q q closed (children_acts k).
Proof.
  intros q P k H K. unfold children_acts. induction K as [|x k X K IH]; [eapply does_impl; [|apply does_nop]; intros t ->; apply closed_nil|].
  cbn [map]. rewrite all_seq. eapply does_seq; [exact X|exact IH|]. intros a b A Bb. apply closed_app; [exact (H _ _ A)|exact Bb].
Qed.
Lemma children_fit : forall q k, k <> [] -> kids_do q (fun _ => fit) k -> does q q fit (children_acts k).
Proof.
  intros q [|x k] N K; [congruence|]. apply Forall_cons_iff in K. destruct K as [X K]. unfold children_acts. cbn [map]. rewrite all_seq.
  eapply does_seq; [exact X| |].
  - apply (children_closed q (fun _ => fit)); [intros ? ? T; apply T|exact K].
  - intros a b. apply fit_app.
Qed.
Lemma black_gt : forall a b : str, one_line a -> one_line b -> fit (a ++ b ++ lit ">" ++ [c_nl]).
Proof. intros a b A Bb. do 2 (apply line_app; [assumption|]). apply black_line; [intros [Z|[]]; discriminate Z|apply (ends_one _ []); reflexivity]. Qed.
Lemma quote_children : forall q indent prefix k first, one_line indent -> one_line prefix -> kids_do q (fun _ => fit) k ->
  does q q closed (blockquote_children indent prefix first k) /\ (k <> [] -> first = true -> does q q fit (blockquote_children indent prefix first k)).
Proof.
  intros q indent prefix k first D P K. revert first. induction K as [|[n a] k X K IH]; intro first; cbn [blockquote_children].
  - split; [|congruence]. eapply does_impl; [|apply does_nop]. intros t ->. apply closed_nil.
  - split.
    + eapply does_seq; [| |intros x y X1 Y1; exact (closed_app hard x y X1 Y1)].
      * destruct first; [eapply does_impl; [|apply does_nop]; intros t ->; apply closed_nil|]. apply does_emit. apply black_gt; assumption.
      * eapply does_seq; [exact X|exact (proj1 (IH false))|]. intros x y X1 Y1. apply closed_app; [apply X1|exact Y1].
    + intros _ ->. apply (does_then q q); [apply does_nop|]. eapply does_seq; [exact X|exact (proj1 (IH false))|]. intros x y. apply fit_app.
Qed.
Lemma here_enter : forall q c, here q c -> here true (enter_blockquote c).
Proof.
  intros q c [H1 H2 H3 H4]. split; cbn; [apply one_app; [exact H1|apply one_lit; reflexivity]|exact one_nil|exact H2|].
  intros _. split; [reflexivity|]. exists c_gt. split; [apply in_or_app; right; left; reflexivity|reflexivity].
Qed.
Lemma here_exit : forall q c c', here q c -> here q (exit_blockquote c c').
Proof. intros q c c' [H1 H2 H3 H4]. split; cbn; assumption. Qed.
Lemma quote_does : forall q k, kids_do true (fun _ => fit) k -> does q q closed (block_quote k) /\ (k <> [] -> does q q fit (block_quote k)).
Proof.
  intros q k K. split; [|intro N]; unfold block_quote; apply does_cx; intros c C; (apply (does_then q true); [apply does_updc; intros; eapply here_enter; eassumption|]);
    (apply (does_last true true q); [|apply does_updc; intros; apply here_exit; exact C]); destruct C as [C1 C2 C3 C4];
    destruct (quote_children true _ _ k true C2 C1 K) as [Q1 Q2]; [exact Q1|]. apply Q2; [exact N|reflexivity].
Qed.
Lemma here_weaken : forall q c (f : ctx -> ctx), blockquote_prefix (f c) = blockquote_prefix c -> list_item_indent (f c) = list_item_indent c ->
  blockquote_outer_indent (f c) = blockquote_outer_indent c -> in_block_quote (f c) = in_block_quote c -> here q c -> here q (f c).
Proof. intros q c f E1 E2 E3 E4 [H1 H2 H3 H4]. split; rewrite ?E1, ?E2, ?E3, ?E4; assumption. Qed.
Lemma here_indent : forall q c x, one_line x -> here q c -> here q (set_item_indent x c).
Proof. intros q c x X [H1 H2 H3 H4]. split; cbn; assumption. Qed.

(** ** Items *)
Lemma one_ctx_quote : forall c, one_line (if in_block_quote c then lit "> " else []).
Proof. intro c. apply one_quote. Qed.
Definition kid_fine (q : bool) (x : node * act) : Prop := does q q fit (snd x) /\ (neat_block U PN ENT o B src hard q (fst x)).
Lemma nls_lead : forall q x y a, Forall (fun c => c = c_nl) x -> one_line y -> does q q fit a -> does q q closed (emit (x ++ y) ;; a).
Proof.
  intros q x y a X Y A. eapply does_seq; [apply (does_emit q (fun t => t = x ++ y)); reflexivity|exact A|]. intros t u -> T.
  rewrite <- app_assoc. apply closed_app; [apply nls_closed; exact X|]. apply (line_app hard y u Y T).
Qed.
Lemma nls1 : Forall (fun c => c = c_nl) [c_nl]. Proof. repeat constructor. Qed.
Lemma nls2 : Forall (fun c => c = c_nl) [c_nl; c_nl]. Proof. repeat constructor. Qed.
Lemma item_rest : forall q base k pn, one_line base -> Forall (kid_fine q) k -> (q = true -> Forall (fun x => unbroken_code o B (fst x)) k) ->
  does q q closed (item_children o B base (Some pn) k).
Proof.
  intros q base k pn Bo K. revert pn. induction K as [|[n a] k [X Nn] K IH]; intros pn Un; cbn [item_children].
  - eapply does_impl; [|apply does_nop]. intros t ->. apply closed_nil.
  - cbn [fst snd] in *.
    assert (R : does q q closed (item_children o B base (Some n) k)).
    { apply IH. intro Q. specialize (Un Q). apply Forall_cons_iff in Un. apply Un. }
    assert (Xc : does q q closed a) by (eapply does_impl; [|exact X]; intros t T; apply T).
    eapply does_seq; [|exact R|apply closed_app]. clear IH R. cbv zeta.
    destruct (node_value n) eqn:V; try exact Xc.
    + eapply does_seq; [apply (does_emit q (fun t => t = [c_nl; c_nl])); reflexivity| |].
      * apply does_lead; [|exact X]. apply does_cx. intros c C. apply does_emit. apply one_ctx_quote.
      * intros t u -> T. apply (closed_app hard [c_nl; c_nl]); [apply nls_closed; exact nls2|apply T].
    + destruct (_ <? _); [apply (nls_lead q [c_nl; c_nl] [])|apply (nls_lead q [c_nl] [])]; try exact one_nil; try exact X; [exact nls2|exact nls1].
    + apply does_cx. intros c C.
      pose proof (nls_lead q [c_nl; c_nl] ((if in_block_quote c then lit "> " else []) ++ base)
        (code_act (fun k => code_block_indented o B (in_block_quote c) k info literal base)) nls2) as G. cbn [app] in G. apply G.
      * apply one_app; [apply one_ctx_quote|exact Bo].
      * apply does_code. intro k0. inversion Nn as [| |i l p cs Nc| | | | | | |]; subst; try discriminate V. cbn [node_value] in V. injection V as -> ->.
        apply code_indented_fit; [exact Bo|exact Nc|]. intros Q. destruct (he_quote _ _ C Q) as [Qt _].
        specialize (Un Qt). apply Forall_cons_iff in Un. destruct Un as [Un _]. cbn [fst] in Un. exact (Un _ _ eq_refl).
    + apply (does_seq q q q (neat hard) fit); [|exact X|intros t u T V1; apply open_app; [exact T|exact V1]].
      eapply does_seq; [apply (does_emit q closed)| |].
      * match goal with |- context [if ?b then _ else _] => destruct b end; apply nls_closed; [exact nls1|exact nls2].
      * apply does_cx. intros c C. apply (does_emit q one_line). apply one_app; [apply one_ctx_quote|exact Bo].
      * intros t u T V1. apply neat_app; [apply T|apply neat_one; exact V1|right; apply T].
    + eapply does_seq; [apply (does_emit q (fun t => t = [c_nl; c_nl])); reflexivity| |].
      * apply does_lead; [|exact X]. apply does_cx. intros c C. apply does_emit. apply one_ctx_quote.
      * intros t u -> T. apply (closed_app hard [c_nl; c_nl]); [apply nls_closed; exact nls2|apply T].
Qed.
Definition opens (c : ctx) (t : str) : Prop := closed t /\ (list_item_index c <= 1 -> starts t).
Lemma item_does : forall q task n a k, ~ below_marker n -> Forall (kid_fine q) ((n, a) :: k) -> (q = true -> Forall (fun x => unbroken_code o B (fst x)) k) ->
  forall s s', here q (cx s) -> fine s -> list_item o B task ((n, a) :: k) s = Ok s' ->
  here q (cx s') /\ fine s' /\ exists t, output s' = output s ++ t /\ closed t /\ (list_item_index (cx s) = 0 -> starts t).
Proof.
  intros q task n a k Nb K Un s s' He F E. unfold list_item in E. apply seqa_ok in E. destruct E as (m & E1 & E). injection E1 as <-.
  apply Forall_cons_iff in K. destruct K as [[X _] K]. cbn [snd] in X.
  assert (G : forall c, here q c -> does q q (opens c) (
    emit (item_head o c task) ;;
    match item_base_indent o c with
    | Panic => panic
    | Ok base =>
        updc (set_item_indent base) ;; item_children o B base None ((n, a) :: k) ;; updc (set_item_indent (list_item_indent c)) ;;
        (match last_child ((n, a) :: k) with Some n => if ends_with_newline_kind n then nop else emit [c_nl] | None => emit [c_nl] end)
    end)).
  { intros c C. destruct (head_text o hard c task) as (x & y & Hx & Cx & Oy & Ix).
    eapply (does_seq q q q (fun t => t = item_head o c task) fit); [apply does_emit; reflexivity| |].
    - destruct (item_base_indent o c) as [base|] eqn:Bi; [|intros ? ? _ _ Z; discriminate Z]. pose proof (base_one o c base Bi) as Bo.
      apply (does_then q q); [apply does_updc; intros c' C'; apply here_indent; assumption|].
      eapply (does_seq q q q fit closed); [| |apply fit_app].
      + cbn [item_children]. eapply (does_seq q q q fit closed); [|exact (item_rest q base k n Bo K Un)|apply fit_app].
        unfold below_marker in Nb. destruct (node_value n); try exact X; try (destruct (Nb Logic.I)).
      + apply (does_then q q); [apply does_updc; intros c' C'; apply here_indent; [apply C|assumption]|].
        destruct (last_child _) as [z|]; [destruct (ends_with_newline_kind z)|].
        * eapply does_impl; [|apply does_nop]. intros t ->. apply closed_nil.
        * apply does_emit. apply nl_closed.
        * apply does_emit. apply nl_closed.
    - intros t u -> T. rewrite Hx, <- app_assoc. assert (Y : fit (y ++ u)) by (apply line_app; assumption). split.
      + apply closed_app; [exact Cx|apply Y].
      + intro L. rewrite (Ix L). cbn [app]. apply Y. }
  assert (H1 : here q (cx (set_cx (set_index (list_item_index (cx s) + 1) (cx s)) s))) by (destruct He; split; assumption).
  assert (F1 : fine (set_cx (set_index (list_item_index (cx s) + 1) (cx s)) s)) by (destruct F; split; assumption).
  destruct (G _ H1 _ _ H1 F1 E) as (H2 & F2 & t & O & T1 & T2). split; [exact H2|]. split; [exact F2|]. exists t. split; [exact O|]. split; [exact T1|].
  intro Z. apply T2. cbn. lia.
Qed.
(** ** Paragraphs, tables, details *)
Lemma quote_one : forall q c, here q c -> one_line (if in_block_quote c then blockquote_outer_indent c ++ blockquote_prefix c else []).
Proof. intros q c [H1 H2 H3 H4]. destruct (in_block_quote c); [apply one_app; assumption|exact one_nil]. Qed.
Definition para_fine (n : node) : Prop := forall x evs, inline_content U ENT o src n = Ok (x, evs) ->
  full_text x /\ (hard = false -> one_line x) /\ full_uses evs.
Lemma paragraph_does : forall q n, unabbreviated src (node_pos n) -> para_fine n -> does q q fit (paragraph U ENT o src n).
Proof.
  intros q n Un H. unfold paragraph. unfold unabbreviated in Un. destruct (extract_source src (node_pos n)) as [source|]; [|intros ? ? _ _ Z; discriminate Z].
  cbv zeta. match goal with |- does _ _ _ (match ?a with Some _ => _ | None => _ end) => destruct a as [t|] eqn:A end.
  - exfalso. destruct source as [x|]; [|discriminate]. destruct (starts_with (lit "*[") (trim x)) eqn:Q; [|discriminate].
    unfold starts_with in Q. destruct (strip_prefix (lit "*[") (trim x)) as [r|] eqn:Sp; [|discriminate]. apply strip_prefix_app in Sp.
    destruct (trim_app x) as (a & b & Ex & _). apply (Un x eq_refl a (r ++ b)). rewrite Sp, <- app_assoc in Ex. exact Ex.
  - apply does_inline. intros x evs E. destruct (H x evs E) as (H1 & H2 & H3). split; [exact H3|]. apply does_cx. intros c C.
    destruct (list_type c).
    + apply does_emit. rewrite (full_trim _ H1).
      destruct (first_line_shown hard U (line_width o) x [] (paragraph_continuation o c) one_nil) as [S _]; [apply continuation_one; apply C|exact H1|exact H2|].
      exact (shown_fit hard [] _ one_nil S).
    + cbv zeta. apply does_emit. pose proof (quote_one q c C) as P. set (p := if in_block_quote c then _ else _) in *. clearbody p.
      destruct (wrapped_shown hard U (line_width o) x p P H1 H2) as [S _]. apply fit_app; [exact (shown_fit hard p _ P S)|apply nl_closed].
Qed.
Lemma details_paragraph_does : forall q quote marker n, one_line quote -> one_line marker -> para_fine n ->
  does q q fit (details_paragraph U ENT o src quote marker n).
Proof.
  intros q quote marker n Q M H. unfold details_paragraph. apply does_lead; [apply does_emit; apply one_app; assumption|].
  apply does_inline. intros x evs E. destruct (H x evs E) as (H1 & H2 & H3). split; [exact H3|]. apply does_emit. rewrite (full_trim _ H1).
  destruct (first_line_shown hard U (line_width o) x [] (quote ++ lit "    ") one_nil) as [S _];
    [apply one_app; [exact Q|apply one_lit; reflexivity]|exact H1|exact H2|].
  apply fit_app; [exact (shown_fit hard [] _ one_nil S)|apply nl_closed].
Qed.
Lemma with_indent_does : forall q x a, one_line x -> does q q fit a -> does q q fit (with_item_indent x a).
Proof.
  intros q x a X A s s' He F E. unfold with_item_indent, get in E. revert He F E. 
  assert (G : forall old, one_line old -> does q q fit (updc (set_item_indent x) ;; a ;; updc (set_item_indent old))).
  { intros old O. apply (does_then q q); [apply does_updc; intros; apply here_indent; assumption|].
    apply (does_last q q q); [exact A|]. apply does_updc. intros; apply here_indent; assumption. }
  intros He F E. exact (G _ (he_indent _ _ He) s s' He F E).
Qed.
Lemma neat_para : forall q n, neat_block U PN ENT o B src hard q n -> node_value n = NParagraph -> para_fine n.
Proof. intros q n N V. inversion N; subst; try discriminate V. assumption. Qed.
Lemma neat_code_of : forall q n info l, neat_block U PN ENT o B src hard q n -> node_value n = NCodeBlock info l -> neat_code o B info l.
Proof. intros q n info l N V. inversion N; subst; try discriminate V. cbn [node_value] in V. injection V as -> ->. assumption. Qed.
Lemma details_rest : forall q quote k, one_line quote -> Forall (kid_fine q) k -> does q q closed (details_children U ENT o B src quote false k).
Proof.
  intros q quote k Q K. induction K as [|[n a] k [X Nn] K IH]; cbn [details_children].
  - eapply does_impl; [|apply does_nop]. intros t ->. apply closed_nil.
  - cbn [fst snd] in *. eapply (does_seq q q q closed closed); [|exact IH|apply closed_app].
    eapply (does_seq q q q closed fit); [apply does_emit; apply nl_closed| |intros x y A Z; apply closed_app; [exact A|apply Z]].
    assert (O4 : one_line (lit "    ")) by (apply one_lit; reflexivity). assert (Q4 : one_line (quote ++ lit "    ")) by (apply one_app; assumption).
    destruct (node_value n) eqn:V; try (apply does_lead; [apply does_emit; exact Q4|exact X]); try exact X; try (apply with_indent_does; assumption).
    + apply does_lead; [apply does_emit; exact Q4|]. apply does_code. intro i. apply code_with_indent_fit; [exact Q4|]. exact (neat_code_of _ _ _ _ Nn V).
    + apply details_paragraph_does; [exact Q|exact O4|]. exact (neat_para _ _ Nn V).
Qed.
Lemma details_first : forall q quote n a k, one_line quote -> Forall (kid_fine q) ((n, a) :: k) -> (forall info l, node_value n <> NCodeBlock info l) ->
  does q q fit (details_children U ENT o B src quote true ((n, a) :: k)).
Proof.
  intros q quote n a k Q K Nc. apply Forall_cons_iff in K. destruct K as [[X Nn] K]. cbn [fst snd] in *. cbn [details_children].
  eapply (does_seq q q q fit closed); [|exact (details_rest q quote k Q K)|apply fit_app].
  assert (O4 : one_line (lit "    ")) by (apply one_lit; reflexivity).
  assert (O5 : one_line (lit ":   ")) by (apply one_lit; reflexivity).
  assert (Q5 : one_line (quote ++ lit ":   ")) by (apply one_app; assumption).
  assert (Q6 : one_line (quote ++ lit ":    ")) by (apply one_app; [exact Q|apply one_lit; reflexivity]).
  assert (Fq : fit (quote ++ lit ":" ++ [c_nl])).
  { apply line_app; [exact Q|]. apply black_line; [apply one_lit; reflexivity|apply (ends_one _ []); reflexivity]. }
  destruct (node_value n) eqn:V; try (apply does_lead; [apply does_emit; exact Q5|exact X]);
    try (eapply (does_seq q q q fit fit); [apply does_emit; exact Fq|apply with_indent_does; [exact O4|exact X]|intros x y A Z; apply fit_app; [exact A|apply Z]]).
  - apply does_lead; [apply does_emit; exact Q6|]. apply (does_then q q); [apply does_updc; intros c [H1 H2 H3 H4]; split; assumption|].
    apply (does_last q q q); [exact X|]. apply does_updc; intros c [H1 H2 H3 H4]; split; assumption.
  - destruct (Nc _ _ eq_refl).
  - apply details_paragraph_does; [exact Q|exact O5|]. exact (neat_para _ _ Nn V).
Qed.
Lemma describe_does : forall q k first, kids_do q (fun _ => fit) k ->
  does q q closed (description_list first k) /\ (k <> [] -> first = true -> does q q fit (description_list first k)).
Proof.
  intros q k first K. revert first. induction K as [|[n a] k X K IH]; intro first; cbn [description_list].
  - split; [|congruence]. eapply does_impl; [|apply does_nop]. intros t ->. apply closed_nil.
  - cbn [fst snd] in *. split.
    + eapply (does_seq q q q closed closed); [| |apply closed_app].
      * destruct first; [eapply does_impl; [|apply does_nop]; intros t ->; apply closed_nil|]. apply does_cx. intros c C.
        destruct (in_block_quote c) eqn:Q; [|apply does_emit; apply nl_closed]. apply does_emit.
        destruct (he_quote _ _ C Q) as [_ I]. rewrite app_assoc. apply black_line.
        -- apply one_app; [apply C|apply one_trim_end; apply C].
        -- apply ends_app. exact (inky_trim _ I).
      * eapply does_seq; [exact X|exact (proj1 (IH false))|]. intros x y X1 Y1. apply closed_app; [apply X1|exact Y1].
    + intros _ ->. apply (does_then q q); [apply does_nop|]. eapply does_seq; [exact X|exact (proj1 (IH false))|]. intros x y. apply fit_app.
Qed.
Definition row_fine (row : node) : Prop :=
  Forall (fun c => forall x evs, inline_content U ENT o src c = Ok (x, evs) -> one_line x /\ full_uses evs) (node_children row).
Lemma full_uses_app : forall a b, full_uses a -> full_uses b -> full_uses (a ++ b).
Proof. intros a b A Bb r J. apply in_app_iff in J. destruct J; [apply A|apply Bb]; assumption. Qed.
Lemma rows_fine : forall rows cells evs, Forall row_fine rows -> table_rows U ENT o src rows = Ok (cells, evs) ->
  Forall (Forall one_line) cells /\ full_uses evs.
Proof.
  intros rows cells evs H. revert cells evs. induction H as [|row rows R H IH]; intros cells evs E; cbn [table_rows] in E.
  - injection E as <- <-. split; [constructor|intros r []].
  - apply rbind_ok in E. destruct E as ([x ex] & E1 & E). apply rbind_ok in E. destruct E as ([y ey] & E2 & E). injection E as <- <-. cbn [fst snd].
    destruct (IH _ _ E2) as [I1 I2]. unfold row_fine in R.
    assert (Z : Forall one_line x /\ full_uses ex).
    { revert x ex E1. induction R as [|c cs Rc R IHr]; intros x ex E1; cbn [map rcollect] in E1; [injection E1 as <- <-; split; [constructor|intros r []]|].
      apply rbind_ok in E1. destruct E1 as ([x1 e1] & E1 & E3). apply rbind_ok in E3. destruct E3 as ([x2 e2] & E3 & E4). injection E4 as <- <-. cbn [fst snd].
      destruct (Rc _ _ E1) as [A1 A2]. destruct (IHr _ _ E3) as [A3 A4]. split; [constructor; assumption|apply full_uses_app; assumption]. }
    destruct Z. split; [constructor; assumption|apply full_uses_app; assumption].
Qed.
Lemma table_does : forall q p aligns rows, rows <> [] -> Forall row_fine rows -> does q q fit (table U ENT o src p aligns rows).
Proof.
  intros q p aligns rows N H. unfold table. destruct rows as [|row rows]; [congruence|]. cbn [is_nil]. apply (does_then q q); [apply does_warn|].
  destruct (table_rows U ENT o src (row :: rows)) as [[cells evs]|] eqn:E; [|intros ? ? _ _ Z; discriminate Z].
  destruct (rows_fine _ _ _ H E) as [H1 H2]. apply (does_then q q); [apply does_events; exact H2|]. apply does_cx. intros c C. apply does_emit.
  apply table_fit; [|exact H1]. exact (table_rows_nonempty U ENT o src _ _ _ N E).
Qed.

(** ** Every block *)
Notation nblock := (neat_block U PN ENT o B src hard).
Notation nitem := (neat_item U PN ENT o B src hard).
Notation nentry := (neat_entry U PN ENT o B src hard).
Notation ndetails := (neat_details U PN ENT o B src hard).
Definition item_claim (q : bool) (a : act) : Prop := forall s s', here q (cx s) -> fine s -> a s = Ok s' ->
  here q (cx s') /\ fine s' /\ exists t, output s' = output s ++ t /\ closed t /\ (list_item_index (cx s) = 0 -> starts t).
Definition claim (n : node) : Prop := forall next q,
  (nblock q n -> does q q fit (ser next n)) /\ (nitem q n -> item_claim q (ser next n)) /\ (nentry q n -> does q q fit (ser next n))
  /\ (ndetails q n -> does q q fit (ser next n))
  /\ (forall p ts, n = Node NDescriptionTerm p ts -> ts <> [] -> Forall (nblock q) ts -> does q q fit (ser next n)).
Lemma kids_blocks : forall q cs, Forall claim cs -> Forall (nblock q) cs -> kids_do q (fun _ => fit) (combine cs (with_next ser cs)).
Proof.
  intros q cs C N. apply kids_all. rewrite Forall_forall in *. intros c J next. exact (proj1 (C c J next q) (N c J)).
Qed.
Lemma kids_fine : forall q cs, Forall claim cs -> Forall (nblock q) cs -> Forall (kid_fine q) (combine cs (with_next ser cs)).
Proof.
  intros q cs C N. induction C as [|c cs Cc C IH]; [constructor|]. apply Forall_cons_iff in N. destruct N as [Nc N]. cbn [with_next combine].
  constructor; [|exact (IH N)]. split; [exact (proj1 (Cc _ q) Nc)|exact Nc].
Qed.
Lemma combine_map : forall (P : node -> Prop) cs, Forall P cs -> Forall (fun x : node * act => P (fst x)) (combine cs (with_next ser cs)).
Proof. intros P cs H. induction H as [|c cs Hc H IH]; [constructor|]. cbn [with_next combine]. constructor; assumption. Qed.
Lemma kids_nonempty : forall cs, cs <> [] -> combine cs (with_next ser cs) <> [].
Proof. intros [|c cs] N; [congruence|discriminate]. Qed.
Lemma list_does : forall q kind tight cs, cs <> [] -> Forall claim cs -> Forall (nitem q) cs -> does q q fit (list_block kind tight (combine cs (with_next ser cs))).
Proof.
  intros q kind tight cs N C It. unfold list_block. apply does_cx. intros c He s s' H F E.
  apply seqa_ok in E. destruct E as (m & E1 & E). injection E1 as <-. apply seqa_ok in E. destruct E as (m1 & E1 & E).
  apply seqa_ok in E. destruct E as (m2 & E2 & E3). unfold get in E2. destruct (list_depth (cx m1) =? 0); [discriminate|]. injection E2 as <-. injection E3 as <-.
  set (m0 := set_cx (enter_list kind tight (map fst (combine cs (with_next ser cs))) (cx s)) s) in *.
  assert (H0 : here q (cx m0)) by (destruct H; split; assumption). assert (F0 : fine m0) by (destruct F; split; assumption).
  assert (O0 : output m0 = output s) by reflexivity. assert (I0 : list_item_index (cx m0) = 0) by reflexivity. clearbody m0.
  assert (R : forall cs, Forall claim cs -> Forall (nitem q) cs -> forall x y, here q (cx x) -> fine x -> children_acts (combine cs (with_next ser cs)) x = Ok y ->
    here q (cx y) /\ fine y /\ exists t, output y = output x ++ t /\ closed t).
  { clear. intros cs C. induction C as [|d cs Cd C IH]; intros It x y Hx Fx E.
    - injection E as <-. split; [exact Hx|]. split; [exact Fx|]. exists []. rewrite app_nil_r. split; [reflexivity|apply closed_nil].
    - apply Forall_cons_iff in It. destruct It as [Id It]. unfold children_acts in E. cbn [with_next combine map] in E. rewrite all_seq in E.
      apply seqa_ok in E. destruct E as (z & E1 & E2). destruct (proj1 (proj2 (Cd _ q)) Id _ _ Hx Fx E1) as (H1 & F1 & t & O & T & _).
      destruct (IH It _ _ H1 F1 E2) as (H2 & F2 & u & O2 & T2). split; [exact H2|]. split; [exact F2|]. exists (t ++ u). rewrite O2, O, <- app_assoc.
      split; [reflexivity|apply closed_app; assumption]. }
  destruct cs as [|d cs]; [congruence|]. apply Forall_cons_iff in C, It. destruct C as [Cd C], It as [Id It].
  unfold children_acts in E1. cbn [with_next combine map] in E1. rewrite all_seq in E1. apply seqa_ok in E1. destruct E1 as (z & E1 & E2).
  destruct (proj1 (proj2 (Cd _ q)) Id _ _ H0 F0 E1) as (H1 & F1 & t & O & T & St). specialize (St I0).
  destruct (R cs C It _ _ H1 F1 E2) as (H2 & F2 & u & O2 & T2).
  split; [destruct H2; split; assumption|]. split; [destruct F2; split; assumption|]. exists (t ++ u).
  split; [cbn [output set_cx]; rewrite O2, O, O0, <- app_assoc; reflexivity|]. apply fit_app; [split; assumption|exact T2].
Qed.
Lemma alert_does : forall q a p k, kids_do true (fun _ => fit) k -> does q q fit (alert a p k).
Proof.
  intros q a p k K. unfold alert. apply does_cx. intros c [H1 H2 H3 H4].
  eapply (does_seq q q q fit closed); [| |apply fit_app].
  - apply does_emit. do 2 (apply line_app; [assumption|]). rewrite !app_assoc. apply black_line; [destruct a; apply one_lit; reflexivity|apply ends_one; reflexivity].
  - eapply (does_seq q q q closed closed); [|exact (proj1 (quote_does q k K))|apply closed_app].
    assert (Z : does q q closed nop) by (eapply does_impl; [|apply does_nop]; intros t ->; apply closed_nil).
    destruct k as [|[first b] k]; [exact Z|]. destruct (_ <? _); [|exact Z]. apply does_emit. apply black_gt; assumption.
Qed.
Theorem neat_all : forall n, claim n.
Proof.
  induction n as [v p cs IH] using node_ind'. intros next q. split; [|split; [|split; [|split]]].
  - intro N. inversion N as [p0 cs0 Un Pc|level p0 cs0 Ht Hu|info l p0 cs0 Nc|p0 cs0 Fl|l p0 cs0 L1 L2 L3|p0 cs0 Ne Fb|a p0 cs0 Fb|kind tight p0 cs0 Ne Fi|aligns p0 rows Ne Fr|p0 cs0 Ne Fe]; subst; cbn [serialize]; cbv zeta.
    + apply paragraph_does; [exact Un|exact Pc].
    + unfold heading. apply does_inline. intros x evs E. split; [exact (Hu x evs E)|].
      intros s s' He F E2. unfold get in E2. revert He F E2. generalize (proper_nouns s) (common_nouns s). intros np nc. revert s s'.
      apply (does_emit q fit). apply heading_fit. apply Ht. exists x, evs, np, nc. split; [exact E|reflexivity].
    + apply does_cx. intros c C. apply does_code. intro n. apply code_fit. exact Nc.
    + unfold thematic_break. apply does_cx. intros c C. apply does_emit. apply line_app.
      * destruct (in_block_quote c); [apply one_app; [apply C|apply one_lit; reflexivity]|exact one_nil].
      * apply line_app; [apply one_spaces|]. apply black_line; apply Fl.
    + apply does_emit. split; [split; assumption|exact L3].
    + apply quote_does; [apply kids_blocks; assumption|apply kids_nonempty; exact Ne].
    + apply alert_does. apply kids_blocks; assumption.
    + apply list_does; assumption.
    + apply table_does; assumption.
    + apply describe_does; [|apply kids_nonempty; exact Ne|reflexivity]. apply kids_all. rewrite Forall_forall in *. intros c J nx.
      exact (proj1 (proj2 (proj2 (IH c J nx q))) (Fe c J)).
  - intro N. inversion N as [v0 p0 c cs0 Le Nb Fb Un]; subst.
    assert (K := kids_fine q _ IH Fb). assert (G : forall task, item_claim q (list_item o B task (combine (c :: cs0) (with_next ser (c :: cs0))))).
    { intros task. cbn [with_next combine] in *. intros s s'. apply item_does; [exact Nb|exact K|]. intro Q. apply combine_map. exact (Un Q). }
    destruct Le as [->|(m & ->)]; cbn [serialize]; cbv zeta; apply G.
  - intro N. inversion N as [p0 t ts ds Nt Ft Fd]; subst. cbn [serialize]. cbv zeta. apply children_fit; [discriminate|]. apply kids_all.
    apply Forall_cons_iff in IH. destruct IH as [It Id]. constructor.
    + intro nx. exact (proj2 (proj2 (proj2 (proj2 (It nx q)))) t ts eq_refl Nt Ft).
    + rewrite Forall_forall in *. intros d J nx. exact (proj1 (proj2 (proj2 (proj2 (Id d J nx q)))) (Fd d J)).
  - intro N. inversion N as [p0 c cs0 Nc Fb]; subst. cbn [serialize]. cbv zeta. unfold description_details. apply does_cx. intros x X.
    apply (does_then q q); [apply does_updc; intros y [H1 H2 H3 H4]; split; assumption|].
    apply (does_last q q q); [|apply does_updc; intros y [H1 H2 H3 H4]; split; assumption].
    assert (K := kids_fine q _ IH Fb). cbn [with_next combine] in *. apply details_first; [exact (quote_one q x X)|exact K|exact Nc].
  - intros p0 ts E Nt Ft. injection E as -> -> ->. cbn [serialize]. cbv zeta. apply children_fit; [apply kids_nonempty; exact Nt|].
    apply kids_blocks; assumption.
Qed.
End Trail.
