(** Proofs for C46: prose, where emphasis stands at the edges of words, is
    placed as the reader wants it. *)
From Coq Require Import Bool Arith NArith Lia ZifyBool ZifyNat ZifyN String List.
From Verif Require Import Base BaseFacts EscapeModel OptsModel PunctModel WrapModel CodeModel TableModel HeadingModel
  AstModel StateModel InlineModel SpecInline SpecText EscapeProof TextProof SpecEmph EmphProof StateProof PropsState PropsText EmphDoc.
Import ListNotations.

Section Prose.
Variable U : Uni.
Variable ENT : str -> option str.
Variable o : Options.
Variable src : list str.
Variables space punct : char -> bool.
Variable defs : str -> option (str * str).
Variable notes : str -> bool.
Variable raw : str -> option (inl * nat).
(** In a heading or not. *)
Variable title : bool.
(** The references that are used; the reader has their definitions. *)
Variable used : reference -> Prop.
Hypothesis Used : forall r, used r -> defined defs (ref_label r) = Some (ref_url r, ref_title r).
Hypothesis Punct : forall c, is_ascii_punct c = true -> punct c = true.
Hypothesis Space : forall c, gap c = true -> space c = true.
Hypothesis Apart : forall c, punct c = true -> space c = false.

Definition shown (t : str) : str := transform_punctuation U o t.
(** White space or punctuation. *)
Definition edge (c : char) : bool := space c || punct c.
Definition first_edge (n : node) : bool :=
  match node_value n with
  | NText t => match shown t with c :: _ => edge c | [] => false end
  | NSoftBreak | NLineBreak | NLink _ _ | NImage _ _ | NHtmlInline _ | NFootnoteReference _ => true
  | _ => false
  end.
Definition last_edge (n : node) : bool :=
  match node_value n with
  | NText t => match rev (shown t) with c :: _ => edge c | [] => false end
  | NSoftBreak | NLineBreak | NCode _ | NEmph | NStrong | NLink _ _ | NImage _ _ | NHtmlInline _ | NFootnoteReference _ => true
  | _ => false
  end.
(** Code, a link, an image, HTML, a footnote reference, or text that does not
    begin (end) with white space. *)
Definition solid (first : bool) (n : node) : bool :=
  match node_value n with
  | NText t => match (if first then shown t else rev (shown t)) with c :: _ => negb (space c) | [] => false end
  | NCode _ | NLink _ _ | NImage _ _ | NHtmlInline _ | NFootnoteReference _ => true
  | _ => false
  end.
(** What follows begins with '[', or with '('. *)
Definition opens_bracket (n : node) : bool := match node_value n with NLink _ _ | NFootnoteReference _ => true | _ => false end.
Definition opens_paren (n : node) : bool :=
  match node_value n with NText t => match shown t with c :: _ => ceq c c_lpar | [] => false end | _ => false end.
Definition bracket_after (r : list node) : bool := existsb opens_bracket (firstn 1 r).
Definition paren_after (r : list node) : bool := existsb opens_paren (firstn 1 r).
Definition edge_after (r : list node) (e : bool) : bool := match r with m :: _ => first_edge m | [] => e end.

Definition word_char (c : char) : Prop := c <> c_lbr /\ c <> c_rbr /\ c <> c_lt.
(** Written with its URL or in angle brackets in the source. *)
Definition unlabelled_at (p : sourcepos) : Prop := exists source, extract_source src p = Ok (Some source) /\ unlabelled source.
(** Text without brackets and '<', before and after the conversion of
    punctuation, code and line endings. *)
Definition flat (n : node) : Prop :=
  match node_value n with
  | NText t => Forall word_char t
  | NCode _ | NSoftBreak | NLineBreak => True
  | _ => False
  end.
(** Of a link or image before [r]: it does not stand before '('; before another
    link only if it has no label in the source; no U+0001 in the source; if it is
    written with its URL, the URL and the title read as they are written; if
    its text is its URL, that is an absolute URL; its text is [flat], or it has no
    label in the source. *)
Definition link_prose (image : bool) (url t : str) (p : sourcepos) (cs r : list node) : Prop :=
  paren_after r = false /\ (bracket_after r = true -> title = false /\ unlabelled_at p) /\ ~ marked_at src p
  /\ (image = true \/ is_external_url url = false \/ existsb is_image cs = true ->
      url_reads ENT url /\ (t <> [] -> title_reads ENT t))
  /\ (image = false -> t = [] -> flat_map verbatim cs = map Chr url ->
      forall rest, autolink_at (url ++ [c_gt] ++ rest) = Some (url, rest))
  /\ (Forall flat cs \/ title = false /\ unlabelled_at p).
(** Prose, before the nodes [r]: text without brackets and '<', and without '!'
    before a bracket; code, line endings; emphasis that begins after an edge and
    ends before one, that does not begin or end with white space or with
    emphasis, and is in no emphasis of the same strength; links and images of
    prose, no links in links; footnote references to footnotes there are, not
    before a bracket or a '('; and HTML that is recognised. *)
Fixpoint prose (linked : bool) (around : list bool) (n : node) (before : bool) (r : list node) (e : bool) : Prop :=
  match n with
  | Node v p cs =>
      let all := fix all (lk : bool) (ar : list bool) (before e : bool) (l : list node) : Prop :=
        match l with
        | [] => True
        | c :: r => prose lk ar c before r e /\ all lk ar (last_edge c) e r
        end in
      let inside (strong : bool) :=
        before = true /\ edge_after r e = true /\ ~ In strong around
        /\ existsb (solid true) (firstn 1 cs) = true /\ existsb (solid false) (firstn 1 (rev cs)) = true
        /\ all linked (strong :: around) true false cs in
      match v with
      | NText t => Forall word_char (shown t) /\ (hd_error (rev (shown t)) = Some c_bang -> bracket_after r = false)
      | NCode _ | NSoftBreak | NLineBreak => True
      | NEmph => inside false
      | NStrong => inside true
      | NLink url t => linked = false /\ link_prose false url t p cs r /\ all true [] true true cs
      | NImage url t => link_prose true url t p cs r /\ all linked [] true true cs
      | NHtmlInline html => forall s, html = [c_lt] ++ s ++ [c_gt] -> angle_reads raw s (Raw html)
      | NFootnoteReference name =>
          bracket_after r = false /\ paren_after r = false
          /\ notes name = true /\ defined defs (c_caret :: name) = None
          /\ Forall (fun c => existsb (ceq c) [c_bt; c_bs; c_amp; c_lt; c_lbr; c_rbr; c_bang] = false) name
      | _ => False
      end
  end.
Fixpoint proses (linked : bool) (around : list bool) (before : bool) (l : list node) (e : bool) : Prop :=
  match l with
  | [] => True
  | c :: r => prose linked around c before r e /\ proses linked around (last_edge c) r e
  end.
Definition prose_inside (linked : bool) (around : list bool) (strong : bool) (cs : list node) (before after : bool) : Prop :=
  before = true /\ after = true /\ ~ In strong around
  /\ existsb (solid true) (firstn 1 cs) = true /\ existsb (solid false) (firstn 1 (rev cs)) = true
  /\ proses linked (strong :: around) true cs false.
Lemma inside_eq : forall linked around cs before e,
  (fix all (lk : bool) (ar : list bool) (before e : bool) (l : list node) : Prop :=
     match l with
     | [] => True
     | c :: r => prose lk ar c before r e /\ all lk ar (last_edge c) e r
     end) linked around before e cs <-> proses linked around before cs e.
Proof.
  intros linked around cs. induction cs as [|c r IH]; intros b e; [reflexivity|]. cbn [proses].
  split; intros [A B]; (split; [exact A|apply IH; exact B]).
Qed.

(** ** The first and the last character of text *)
Inductive kind_of_piece : piece -> Prop :=
| kp_plain : forall c, kind_of_piece (Plain c)
| kp_escaped : forall c, is_ascii_punct c = true -> kind_of_piece (Escaped c)
| kp_reference : forall s m, kind_of_piece (Reference (c_amp :: s ++ [c_semi]) m).
Lemma numeric_ends : forall pre b d k s sp m, numeric pre b d k s = Some (sp, m) -> exists x, sp = x ++ [c_semi].
Proof.
  intros pre b d k s sp m H. unfold numeric in H. destruct (_ && _); [|discriminate H]. destruct (skipn _ _); [discriminate H|].
  destruct (ceq _ _); [|discriminate H]. assert (E : sp = pre ++ take_while (is_digit_of d) s ++ [c_semi]) by congruence.
  rewrite app_assoc in E. eexists. exact E.
Qed.
Lemma reference_ends : forall r sp m, reference_after ENT r = Some (sp, m) -> exists s, sp = s ++ [c_semi].
Proof.
  intros r sp m H. unfold reference_after in H. destruct r as [|h r]; [discriminate H|]. destruct (ceq h c_hash).
  - destruct r as [|x r]; [discriminate H|]. destruct (_ || _); eapply numeric_ends; exact H.
  - unfold named in H. destruct (skipn _ _); [discriminate H|]. destruct (ceq _ _); [|discriminate H].
    destruct (ENT _); [|discriminate H]. assert (E : sp = take_while is_ascii_alnum (h :: r) ++ [c_semi]) by congruence. eexists. exact E.
Qed.
Lemma first_piece_kind : forall c r, kind_of_piece (first_piece ENT c r).
Proof.
  intros c r. unfold first_piece. destruct (ceq c c_bs).
  - destruct r as [|d r]; [constructor|]. destruct (is_ascii_punct d) eqn:P; constructor; assumption.
  - destruct (ceq_spec c c_amp) as [->|]; [|constructor]. destruct (reference_after ENT r) as [[sp m]|] eqn:R; [|constructor].
    destruct (reference_ends _ _ _ R) as [s ->]. constructor.
Qed.
Lemma pieces_kinds : forall w, Forall kind_of_piece (pieces ENT w).
Proof.
  intro w. remember (List.length w) as n eqn:E. revert w E.
  induction n as [n IH] using lt_wf_ind. intros w E. destruct w as [|c r]; [constructor|].
  destruct (first_piece_prefix ENT c r) as (s' & F & Ln). rewrite (pieces_cons ENT c r s' F). constructor; [apply first_piece_kind|].
  apply (IH (List.length s')); [|reflexivity].
  apply (f_equal (@List.length char)) in F. rewrite app_length in F. unfold str in *. lia.
Qed.
Lemma plain_kinds : forall ps, plain_text ENT ps -> Forall kind_of_piece ps.
Proof. intros ps [E _]. rewrite <- E. apply pieces_kinds. Qed.
Lemma plain_meaning : forall ps c, In (Plain c) ps -> In c (flat_map meaning ps).
Proof. intros ps c I. apply in_flat_map. exists (Plain c). split; [exact I|left; reflexivity]. Qed.

(** A character before a mark, or after one. *)
Definition calm (c : char) : Prop := is_mark c = false /\ c <> c_lbr.
Lemma text_first : forall ps t, plain_text ENT ps -> ps <> [] -> flat_map meaning ps = shown t ->
  Forall word_char (shown t) ->
  exists c, next (flat_map spelling ps) None = Some c /\ calm c
    /\ (c = c_lpar -> opens_paren (Node (NText t) (mkPos 0 0 0 0) []) = true)
    /\ (first_edge (Node (NText t) (mkPos 0 0 0 0) []) = true -> edge c = true)
    /\ (solid true (Node (NText t) (mkPos 0 0 0 0) []) = true -> space c = false).
Proof.
  intros ps t PT NE M NB. destruct ps as [|p ps]; [contradiction NE; reflexivity|].
  pose proof (plain_kinds _ PT) as K. inversion K as [|? ? K1 _]; subst. cbn [flat_map] in M.
  unfold first_edge, solid, edge, opens_paren. cbn [node_value]. inversion K1; subst; cbn [spelling meaning flat_map app next] in *.
  - rewrite <- M. exists c. split; [reflexivity|]. split; [|split; [intros ->; reflexivity|split]].
    + split.
      * destruct (is_mark c) eqn:Q; [|reflexivity]. destruct PT as [_ PT]. exfalso. apply (PT c); [|left; reflexivity].
        unfold is_mark, special in *. cbn [existsb]. destruct (ceq c c_star); [reflexivity|]. cbn in Q. rewrite Q. destruct (ceq c c_bs); reflexivity.
      * rewrite <- M in NB. inversion NB as [|? ? [? _]]. assumption.
    + auto.
    + intro H. apply negb_true_iff in H. exact H.
  - exists c_bs. split; [reflexivity|]. split; [split; [reflexivity|discriminate]|]. split; [discriminate|].
    assert (P : punct c_bs = true) by (apply Punct; reflexivity). rewrite P, orb_true_r. split; [reflexivity|]. intros _. apply Apart. exact P.
  - exists c_amp. split; [reflexivity|]. split; [split; [reflexivity|discriminate]|]. split; [discriminate|].
    assert (P : punct c_amp = true) by (apply Punct; reflexivity). rewrite P, orb_true_r. split; [reflexivity|]. intros _. apply Apart. exact P.
Qed.
Lemma last_of_app : forall a s x, last_of (a ++ s) x = last_of s (last_of a x).
Proof.
  intros a s x. unfold last_of. rewrite rev_app_distr. destruct (rev s) as [|c r]; [reflexivity|reflexivity].
Qed.
Lemma text_last : forall ps t x, plain_text ENT ps -> ps <> [] -> flat_map meaning ps = shown t ->
  exists c, last_of (flat_map spelling ps) x = Some c
    /\ (c = c_bang -> hd_error (rev (shown t)) = Some c_bang)
    /\ (last_edge (Node (NText t) (mkPos 0 0 0 0) []) = true -> edge c = true)
    /\ (solid false (Node (NText t) (mkPos 0 0 0 0) []) = true -> space c = false).
Proof.
  intros ps t x PT NE M. destruct (exists_last NE) as (qs & p & ->).
  pose proof (plain_kinds _ PT) as K. apply Forall_app in K. destruct K as [_ K]. inversion K as [|? ? K1 _]; subst.
  rewrite flat_map_app in M. rewrite flat_map_app, last_of_app. cbn [flat_map] in *. rewrite app_nil_r in *.
  unfold last_edge, solid, edge. cbn [node_value]. rewrite <- M. inversion K1; subst; cbn [spelling meaning] in *.
  - exists c. split; [reflexivity|]. rewrite rev_app_distr. cbn [rev app hd_error]. split; [intros ->; reflexivity|]. split; [auto|].
    intro H. apply negb_true_iff in H. exact H.
  - exists c. assert (P : punct c = true) by (apply Punct; assumption). split; [reflexivity|]. rewrite P, orb_true_r.
    split; [rewrite rev_app_distr; intros ->; reflexivity|]. split; [reflexivity|].
    intros _. apply Apart. exact P.
  - exists c_semi. assert (P : punct c_semi = true) by (apply Punct; reflexivity).
    split; [unfold last_of; change (c_amp :: s ++ [c_semi]) with ((c_amp :: s) ++ [c_semi]); rewrite rev_app_distr; reflexivity|].
    rewrite P, orb_true_r. split; [discriminate|]. split; [reflexivity|]. intros _. apply Apart. exact P.
Qed.

(** ** The first and the last character of a node *)
Definition edge_at (x : option char) : Prop := match x with Some c => edge c = true | None => True end.
Definition calm_at (x : option char) : Prop := match x with Some c => is_mark c = false | None => True end.
Lemma mark_punct : forall c, is_mark c = true -> punct c = true.
Proof.
  intros c H. apply Punct. unfold is_mark in H. apply orb_true_iff in H. destruct H as [H|H]; apply ceq_true in H; subst c; reflexivity.
Qed.
Lemma gap_calm : forall c, gap c = true -> calm c.
Proof.
  intros c H. unfold gap in H. repeat (apply orb_true_iff in H; destruct H as [H|H]); apply ceq_true in H; subst c; (split; [reflexivity|discriminate]).
Qed.
Ltac is_gap := match goal with
  | H : ?c = c_nul \/ ?c = c_sp |- _ => assert (gap c = true) by (destruct H as [->| ->]; reflexivity)
  end.
Lemma next_app : forall a s x, next (a ++ s) x = next a (next s x).
Proof. intros [|c a] s x; reflexivity. Qed.
Lemma next_some : forall s c x, next s None = Some c -> next s x = Some c.
Proof. intros [|d s] c x H; [discriminate H|exact H]. Qed.
Lemma bt_punct : punct c_bt = true.
Proof. apply Punct. reflexivity. Qed.
Ltac ascii_edge c := let P := fresh in assert (P : punct c = true) by (apply Punct; reflexivity);
  unfold edge; rewrite ?P, ?orb_true_r; split; intros; repeat split; try reflexivity; apply Apart; exact P.
Lemma node_first : forall n l linked around b r e, lays U ENT o src title used n l -> prose linked around n b r e ->
  exists c, next (spell1 l) None = Some c /\ (c = c_lbr -> opens_bracket n = true) /\ (c = c_lpar -> opens_paren n = true)
    /\ (first_edge n = true -> edge c = true /\ is_mark c = false)
    /\ (solid true n = true -> space c = false /\ is_mark c = false).
Proof.
  intros n l linked around b r e L P. destruct n as [v p cs].
  inversion L; subst.
  - cbn [prose] in P. destruct P as [P _]. destruct (text_first ps t) as (c & A & [B C] & O & D & E); try assumption.
    exists c. cbn [spell1]. split; [exact A|]. split; [intro; contradiction|]. split; [exact O|]. split; intro H; (split; [|exact B]); [exact (D H)|exact (E H)].
  - match goal with H : code_span _ _ |- _ => destruct H as [[z ->] _] end. exists c_bt. split; [reflexivity|]. split; [discriminate|]. split; [discriminate|].
    split; [discriminate|]. intros _. split; [apply Apart, bt_punct|reflexivity].
  - is_gap. exists c. split; [reflexivity|]. destruct (gap_calm c) as [A B]; [assumption|]. split; [intro; contradiction|].
    split; [match goal with H : _ \/ _ |- _ => destruct H as [->| ->]; discriminate end|].
    split; [|discriminate]. intros _. split; [|exact A]. unfold edge. rewrite (Space c) by assumption. reflexivity.
  - exists c_nl. split; [reflexivity|]. split; [discriminate|]. split; [discriminate|]. split; [|discriminate]. intros _. split; [|reflexivity].
    unfold edge. rewrite (Space c_nl) by reflexivity. reflexivity.
  - exists c. split; [reflexivity|]. split; [|split; [|split; discriminate]]; intros ->;
      match goal with H : delimiter_rule _ _ _ _ |- _ => apply emphasis_mark in H; discriminate H end.
  - exists c. split; [reflexivity|]. split; [|split; [|split; discriminate]]; intros ->;
      match goal with H : delimiter_rule _ _ _ _ |- _ => apply strong_mark in H; discriminate H end.
  - destruct image; [exists c_bang|exists c_lbr]; (split; [reflexivity|]); (split; [discriminate||reflexivity|]); (split; [discriminate|]);
      [ascii_edge c_bang|ascii_edge c_lbr].
  - destruct image; [exists c_bang|exists c_lbr]; (split; [reflexivity|]); (split; [discriminate||reflexivity|]); (split; [discriminate|]);
      [ascii_edge c_bang|ascii_edge c_lbr].
  - exists c_lt. split; [reflexivity|]. split; [discriminate|]. split; [discriminate|]. ascii_edge c_lt.
  - exists c_lt. split; [reflexivity|]. split; [discriminate|]. split; [discriminate|]. ascii_edge c_lt.
  - exists c_lbr. split; [reflexivity|]. split; [reflexivity|]. split; [discriminate|]. ascii_edge c_lbr.
Qed.
Lemma last_of_end : forall s c x, last_of (s ++ [c]) x = Some c.
Proof. intros s c x. unfold last_of. rewrite rev_app_distr. reflexivity. Qed.
Lemma spelled_how : forall image body h url t x, exists c, last_of (spell1 (LLink image body h url t)) x = Some c /\ (c = c_rbr \/ c = c_rpar).
Proof.
  intros image body h url t x. cbn [spell1]. destruct h as [u t'|l| |]; cbn [spell_how]; rewrite !last_of_app.
  - exists c_rpar. split; [|right; reflexivity]. destruct (is_nil t'); rewrite ?last_of_app; reflexivity.
  - exists c_rbr. split; [|left; reflexivity]. rewrite ?last_of_app. reflexivity.
  - exists c_rbr. split; [reflexivity|left; reflexivity].
  - exists c_rbr. split; [reflexivity|left; reflexivity].
Qed.
Lemma node_last : forall n l linked around b r e x, lays U ENT o src title used n l -> prose linked around n b r e ->
  exists c, last_of (spell1 l) x = Some c
    /\ (last_edge n = true -> edge c = true) /\ (solid false n = true -> space c = false).
Proof.
  intros n l linked around b r e x L P. destruct n as [v p cs].
  inversion L; subst.
  - destruct (text_last ps t x) as (c & A & _ & D & E); try assumption. exists c. cbn [spell1]. auto.
  - match goal with H : code_span _ _ |- _ => destruct H as [[z ->] _] end. exists c_bt. cbn [spell1].
    split; [exact (last_of_end (c_bt :: z) c_bt x)|]. pose proof bt_punct as Q. unfold edge. rewrite Q, orb_true_r.
    split; [reflexivity|]. intros _. apply Apart. exact Q.
  - is_gap. exists c. split; [reflexivity|]. split; [|discriminate]. intros _. unfold edge. rewrite (Space c) by assumption. reflexivity.
  - exists c_nl. split; [reflexivity|]. split; [|discriminate]. intros _. unfold edge. rewrite (Space c_nl) by reflexivity. reflexivity.
  - exists c. cbn [spell1 mark]. rewrite app_assoc. split; [apply last_of_end|]. split; [|discriminate]. intros _.
    unfold edge. rewrite (mark_punct c), orb_true_r; [reflexivity|].
    match goal with H : delimiter_rule _ _ _ _ |- _ => apply emphasis_mark in H; exact H end.
  - exists c. cbn [spell1 mark]. change [c; c] with ([c] ++ [c]). rewrite !app_assoc. split; [apply last_of_end|]. split; [|discriminate]. intros _.
    unfold edge. rewrite (mark_punct c), orb_true_r; [reflexivity|].
    match goal with H : delimiter_rule _ _ _ _ |- _ => apply strong_mark in H; exact H end.
  - destruct (spelled_how image body h url t x) as (c & E & [->| ->]); eexists; (split; [exact E|]); [ascii_edge c_rbr|ascii_edge c_rpar].
  - destruct (spelled_how image body h url t x) as (c & E & [->| ->]); eexists; (split; [exact E|]); [ascii_edge c_rbr|ascii_edge c_rpar].
  - exists c_gt. cbn [spell1]. split; [rewrite ?app_assoc; apply last_of_end|]. ascii_edge c_gt.
  - exists c_gt. cbn [spell1]. split; [rewrite ?app_assoc; apply last_of_end|]. ascii_edge c_gt.
  - exists c_rbr. cbn [spell1]. split; [rewrite ?app_assoc; apply last_of_end|]. ascii_edge c_rbr.
Qed.

(** ** Marks *)
Lemma opens_here : forall c before x, is_mark c = true -> edge_at before -> space x = false ->
  can_open space punct c before (Some x) = true.
Proof.
  intros c before x M E S0. unfold can_open, left_flanking, right_flanking, blank, dotted. rewrite S0.
  destruct before as [d|]; cbn [edge_at] in E.
  - unfold edge in E. destruct (space d), (punct d), (punct x), (ceq c c_us); try discriminate E; reflexivity.
  - destruct (punct x), (ceq c c_us); reflexivity.
Qed.
Lemma closes_here : forall c after x, is_mark c = true -> edge_at after -> space x = false ->
  can_close space punct c (Some x) after = true.
Proof.
  intros c after x M E S0. unfold can_close, left_flanking, right_flanking, blank, dotted. rewrite S0.
  destruct after as [d|]; cbn [edge_at] in E.
  - unfold edge in E. destruct (space d), (punct d), (punct x), (ceq c c_us); try discriminate E; reflexivity.
  - destruct (punct x), (ceq c c_us); reflexivity.
Qed.
Lemma words_bracket_free : forall ps, Forall word_char (flat_map meaning ps) -> bracket_free ps.
Proof.
  intros ps F. rewrite Forall_forall in F. split; [|split].
  - intro I. apply plain_meaning in I. apply F in I. destruct I as [I _]. contradiction I; reflexivity.
  - intro I. apply plain_meaning in I. apply F in I. destruct I as (_ & I & _). contradiction I; reflexivity.
  - assert (K : forall p, In p ps -> p <> Plain c_lt).
    { intros p I ->. apply plain_meaning in I. apply F in I. destruct I as (_ & _ & I). contradiction I; reflexivity. }
    clear - K. induction ps as [|p ps IH]; [exact Logic.I|]. cbn [less_free]. destruct p as [c|c|s m].
    + split; [|apply IH; intros; apply K; right; assumption]. intros ->. exfalso. apply (K (Plain c_lt)); [left; reflexivity|reflexivity].
    + apply IH; intros; apply K; right; assumption.
    + apply IH; intros; apply K; right; assumption.
Qed.


(** ** Links *)
Lemma delimited_split : forall n s end_ never a b, List.length s <= n -> delimited end_ never s = Some (a, b) -> s = a ++ end_ :: b.
Proof.
  induction n as [|n IH]; intros s end_ never a b Ln H; (destruct s as [|c s]; [discriminate H|]); cbn [List.length] in Ln; [lia|].
  cbn [delimited] in H. destruct (ceq c c_bs).
  - destruct s as [|d s]; [discriminate H|]. cbn [List.length] in Ln.
    destruct (delimited end_ never s) as [[x y]|] eqn:D; [|discriminate H]. injection H as <- <-.
    apply IH in D; [|lia]. rewrite D. reflexivity.
  - destruct (ceq_spec c end_) as [->|]; [injection H as <- <-; reflexivity|]. destruct (never c); [discriminate H|].
    destruct (delimited end_ never s) as [[x y]|] eqn:D; [|discriminate H]. injection H as <- <-.
    apply IH in D; [|lia]. rewrite D. reflexivity.
Qed.
Lemma label_reads : forall l, is_label l = true -> l <> [] /\ label_at (l ++ [c_rbr]) = Some (l, []).
Proof.
  intros l H. unfold is_label in H. destruct (label_at (l ++ [c_rbr])) as [[a [|b bs]]|] eqn:E; try discriminate H.
  split; [intros ->; discriminate H|]. unfold label_at in E. pose proof (delimited_split _ _ _ _ _ _ (le_n _) E) as Q.
  apply app_inj_tail in Q. destruct Q as [-> _]. reflexivity.
Qed.
Lemma used_label : forall r, used r -> is_label (ref_label r) = true.
Proof. intros r R. apply Used in R. unfold defined in R. destruct (is_label (ref_label r)); [reflexivity|discriminate R]. Qed.
Lemma not_both : forall p, unlabelled_at p -> labelled_at src p -> False.
Proof.
  intros p (source & E & N) (source' & image & inside & E' & Z & L). rewrite E in E'. injection E' as <-.
  apply style_unlabelled in N. destruct (style_labelled image inside source L Z) as (label & Q & _). congruence.
Qed.
Lemma link_reads : forall image url t p cs r body h after,
  link_prose image url t p cs r -> how_written src used image p cs url t (spell body) h ->
  ends_open src title (Node (lv image url t) p cs) (LLink image body h url t) (hd_error r) ->
  (after = Some c_lbr -> bracket_after r = true) -> (after = Some c_lpar -> paren_after r = true) ->
  how_reads ENT defs (spell body) h url t after.
Proof.
  intros image url t p cs r body h after (PA & BA & MK & UR & _ & _) H O AB AP. destruct h as [u t'|l| |]; cbn [how_written how_reads ends_open] in *.
  - destruct H as (-> & -> & H). split; [reflexivity|]. split; [reflexivity|]. exact (UR H).
  - destruct (label_reads l (used_label _ H)) as [A B]. split; [exact A|]. split; [exact B|]. exact (Used _ H).
  - destruct H as [H|H]; [exact (Used _ H)|contradiction (MK H)].
  - split; [exact (Used _ H)|]. split; intro Q.
    + rewrite (AP Q) in PA. discriminate PA.
    + specialize (AB Q). destruct (BA AB) as [T N]. destruct O as [O|[O|O]]; [congruence|exact (not_both p N O)|].
      destruct r as [|m r]; [discriminate AB|]. cbn [hd_error next_starts_with_bracket] in O. unfold bracket_after in AB. cbn [firstn existsb] in AB.
      unfold opens_bracket in AB. destruct (node_value m); try discriminate AB; discriminate O.
Qed.
(** A layout of [flat] nodes. *)
Definition flat_inl (i : inl) : Prop := match i with Chr c => word_char c | Cod _ => True | _ => False end.
Lemma flat_contents : forall cs, Forall flat cs -> Forall flat_inl (flat_map verbatim cs).
Proof.
  induction cs as [|n cs IH]; intro F; [constructor|]. inversion F as [|? ? F1 F2]; subst. cbn [flat_map]. apply Forall_app.
  split; [|exact (IH F2)]. clear - F1. destruct n as [v p ks]. unfold flat in F1. cbn [node_value] in F1. destruct v; try (exfalso; exact F1); cbn [verbatim].
  - induction F1 as [|c s C _ IH]; constructor; assumption.
  - constructor; [repeat split; discriminate|constructor].
  - constructor; [repeat split; discriminate|constructor].
  - constructor; [exact Logic.I|constructor].
Qed.
Lemma chr_words : forall s, Forall flat_inl (map Chr s) -> Forall word_char s.
Proof. induction s as [|c s IH]; intro F; [constructor|]. inversion F; subst. constructor; auto. Qed.
Lemma flat_next : forall body x, Forall flat_inl (contents body) -> sound ENT body x -> x <> Some c_lbr -> next (spell body) x <> Some c_lbr.
Proof.
  induction body as [|l body IH]; intros x F S0 N; [exact N|]. destruct S0 as [S1 S2]. unfold contents in F. cbn [flat_map] in F. apply Forall_app in F. destruct F as [F1 F2].
  unfold spell. cbn [flat_map]. rewrite next_app. specialize (IH x F2 S2 N).
  destruct l as [ps|c|s z|strong c b|image b h url t|s i|name]; cbn [contents1 spell1 sound1] in *.
  - destruct S1 as [PT _]. destruct ps as [|p ps]; [exact IH|]. pose proof (plain_kinds _ PT) as K. inversion K as [|? ? K1 _]; subst.
    inversion K1; subst; cbn [flat_map spelling app next]; [|discriminate|discriminate].
    intro Q. injection Q as ->. apply chr_words in F1. inversion F1 as [|? ? [W _] _]; subst. contradiction W; reflexivity.
  - intro Q. injection Q as ->. discriminate S1.
  - destruct S1 as [[[z' ->] _] _]. discriminate.
  - inversion F1 as [|? ? W _]; subst. destruct strong; destruct W.
  - inversion F1 as [|? ? W _]; subst. destruct W.
  - inversion F1 as [|? ? W _]; subst. destruct i; first [exact (False_ind _ W)|exact (False_ind _ S1)].
  - inversion F1 as [|? ? W _]; subst. destruct W.
Qed.
Lemma flat_placed : forall body before, Forall flat_inl (contents body) -> sound ENT body (Some c_rbr) ->
  placed ENT space punct defs notes raw [] before body (Some c_rbr) /\ linkless body.
Proof.
  induction body as [|l body IH]; intros before F S0; [split; [exact Logic.I|constructor]|]. destruct S0 as [S1 S2].
  unfold contents in F. cbn [flat_map] in F. apply Forall_app in F. destruct F as [F1 F2].
  assert (NX : next (spell body) (Some c_rbr) <> Some c_lbr) by (apply flat_next; [exact F2|exact S2|discriminate]).
  destruct (IH (last_of (spell1 l) before) F2 S2) as [P L]. cbn [placed].
  destruct l as [ps|c|s z|strong c b|image b h url t|s i|name]; cbn [contents1 spell1 sound1 placed1] in *.
  - split; [split; [|exact P]|constructor; [exact Logic.I|exact L]]. split; [|intros _; exact NX].
    apply chr_words in F1. apply words_bracket_free. exact F1.
  - split; [split; [exact Logic.I|exact P]|constructor; [exact Logic.I|exact L]].
  - split; [split; [exact Logic.I|exact P]|constructor; [exact Logic.I|exact L]].
  - inversion F1 as [|? ? W _]; subst. destruct strong; destruct W.
  - inversion F1 as [|? ? W _]; subst. destruct W.
  - inversion F1 as [|? ? W _]; subst. destruct i; first [exact (False_ind _ W)|exact (False_ind _ S1)].
  - inversion F1 as [|? ? W _]; subst. destruct W.
Qed.

Definition prose_is_placed (n : node) : Prop := forall l linked around before after b r e,
  lays U ENT o src title used n l -> prose linked (map fst around) n b r e -> ends_open src title n l (hd_error r) -> (b = true -> edge_at before) ->
  (edge_after r e = true -> edge_at after /\ calm_at after) ->
  (after = Some c_lbr -> bracket_after r = true) -> (after = Some c_lpar -> paren_after r = true) ->
  placed1 ENT space punct defs notes raw around l before after /\ (linked = true -> linkless1 l).
Lemma kids_placed : forall cs ls linked around before after b e, Forall prose_is_placed cs ->
  Forall2 (lays U ENT o src title used) cs ls -> joined src title cs ls -> proses linked (map fst around) b cs e -> (b = true -> edge_at before) ->
  (e = true -> edge_at after /\ calm_at after) -> after <> Some c_lbr -> after <> Some c_lpar ->
  placed ENT space punct defs notes raw around before ls after /\ (linked = true -> linkless ls).
Proof.
  intros cs ls linked around before after b e F L. revert before b. induction L as [|n l cs ls L1 L IH]; intros before b J P B A NA NP.
  - split; [exact Logic.I|]. intros _. constructor.
  - inversion F as [|? ? F1 F2]; subst. cbn [proses] in P. destruct P as [P1 P2]. cbn [placed]. cbn [joined] in J. destruct J as [J1 J2].
    destruct (node_last n l _ _ _ _ _ before L1 P1) as (x & LE & E1 & _).
    assert (NX : match cs with [] => next (spell ls) after = after
                 | m :: _ => exists c, next (spell ls) after = Some c /\ (c = c_lbr -> opens_bracket m = true) /\ (c = c_lpar -> opens_paren m = true)
                             /\ (first_edge m = true -> edge c = true /\ is_mark c = false)
                 end).
    { destruct L as [|m k cs ls Lm L]; [reflexivity|]. cbn [proses] in P2. destruct P2 as [Pm _].
      destruct (node_first m k _ _ _ _ _ Lm Pm) as (c & N1 & N2 & N3 & N4 & _). exists c. split; [|split; [|split]; assumption].
      unfold spell. cbn [flat_map]. rewrite next_app. apply next_some. exact N1. }
    destruct (IH F2 (last_of (spell1 l) before) (last_edge n) J2 P2) as [Q1 Q2]; try assumption; [rewrite LE; exact E1|].
    destruct (F1 l linked around before (next (spell ls) after) b cs e L1 P1 J1 B) as [R1 R2].
    + destruct cs as [|m cs]; [rewrite NX; exact A|]. destruct NX as (c & -> & _ & _ & N3). intro Q. exact (N3 Q).
    + destruct cs as [|m cs]; [rewrite NX; intro; contradiction|]. destruct NX as (c & -> & N2 & _). intro Q. injection Q as ->.
      unfold bracket_after. cbn [firstn existsb]. rewrite (N2 eq_refl). reflexivity.
    + destruct cs as [|m cs]; [rewrite NX; intro; contradiction|]. destruct NX as (c & -> & _ & N2 & _). intro Q. injection Q as ->.
      unfold paren_after. cbn [firstn existsb]. rewrite (N2 eq_refl). reflexivity.
    + split; [split; [exact R1|exact Q1]|]. intro K. constructor; [exact (R2 K)|exact (Q2 K)].
Qed.
Lemma last_solid : forall linked around n l cs body b x, lays U ENT o src title used n l -> Forall2 (lays U ENT o src title used) cs body ->
  prose linked around n b cs false ->
  proses linked around (last_edge n) cs false -> existsb (solid false) (firstn 1 (rev (n :: cs))) = true ->
  exists y, last_of (flat_map spell1 (l :: body)) x = Some y /\ space y = false.
Proof.
  intros linked around n l cs body b x L1 L. revert n l b x L1. induction L as [|m k cs body Lm L IH]; intros n l b x L1 P1 P2 SL.
  - cbn [rev app firstn existsb] in SL. rewrite orb_false_r in SL.
    destruct (node_last n l _ _ _ _ _ x L1 P1) as (y & A1 & _ & A2). exists y. cbn [flat_map]. rewrite app_nil_r. auto.
  - cbn [proses] in P2. destruct P2 as [Pm P2].
    change (flat_map spell1 (l :: k :: body)) with (spell1 l ++ flat_map spell1 (k :: body)). rewrite last_of_app.
    apply (IH m k (last_edge n) _ Lm Pm P2).
    cbn [rev] in SL |- *. remember (rev cs ++ [m]) as q eqn:Q. destruct q as [|h q]; [destruct (rev cs); discriminate Q|exact SL].
Qed.
Lemma linkless_body : forall body,
  (fix all (ls : list lay) : Prop := match ls with [] => True | x :: r => linkless1 x /\ all r end) body <-> linkless body.
Proof.
  induction body as [|x r IH]; [split; intros; [constructor|exact Logic.I]|]. split.
  - intros [A B]. constructor; [exact A|apply IH; exact B].
  - intro H. inversion H; subst. split; [assumption|apply IH; assumption].
Qed.
Lemma mark_here : forall strong c cs body linked around before after b a, is_mark c = true ->
  Forall prose_is_placed cs -> Forall2 (lays U ENT o src title used) cs body -> joined src title cs body ->
  prose_inside linked (map fst around) strong cs b a -> (b = true -> edge_at before) ->
  (a = true -> edge_at after /\ calm_at after) ->
  placed1 ENT space punct defs notes raw around (LMark strong c body) before after /\ (linked = true -> linkless1 (LMark strong c body)).
Proof.
  intros strong c cs body linked around before after b a M F L J (B1 & A1 & NI & SF & SL & P) B A.
  specialize (B B1). destruct (A A1) as [EA CA].
  destruct (kids_placed cs body linked ((strong, c) :: around) (Some c) (Some c) true false F L J P) as [K1 K2].
  { intros _. cbn [edge_at]. unfold edge. rewrite (mark_punct c M), orb_true_r. reflexivity. }
  { discriminate. }
  { intro Q. injection Q as ->. discriminate M. }
  { intro Q. injection Q as ->. discriminate M. }
  split; [|intro K; cbn [linkless1]; apply linkless_body; exact (K2 K)]. cbn [placed1]. split; [|apply placed_body; exact K1].
  destruct L as [|n l cs body L1 L]; [discriminate SF|]. cbn [firstn existsb] in SF. rewrite orb_false_r in SF.
  cbn [proses] in P. destruct P as [P1 P2].
  destruct (node_first n l _ _ _ _ _ L1 P1) as (x & N1 & _ & _ & _ & N4). destruct (N4 SF) as [SX MX].
  assert (NX : next (flat_map spell1 (l :: body)) (Some c) = Some x).
  { cbn [flat_map]. rewrite next_app. apply next_some. exact N1. }
  unfold mark_placed. rewrite NX. split; [apply opens_here; assumption|]. split.
  { intros _ I. apply NI. apply in_map_iff. exists (strong, c). split; [reflexivity|exact I]. }
  split; [intro Q; injection Q as ->; congruence|]. split.
  - assert (LX : exists y, last_of (flat_map spell1 (l :: body)) (Some c) = Some y /\ space y = false).
    { exact (last_solid _ _ n l cs body true (Some c) L1 L P1 P2 SL). }
    destruct LX as (y & -> & SY). apply closes_here; assumption.
  - intros ->. cbn [calm_at] in CA. congruence.
Qed.
Lemma link_here : forall image url t p cs body h (linked inner : bool) around before after r,
  (Forall2 (lays U ENT o src title used) cs body /\ joined src title cs body
   \/ sound ENT body (Some c_rbr) /\ contents body = flat_map verbatim cs /\ (title = true \/ labelled_at src p)) ->
  Forall prose_is_placed cs -> link_prose image url t p cs r -> proses inner [] true cs true ->
  (image = false -> linked = false /\ inner = true) -> (linked = true -> inner = true) ->
  how_written src used image p cs url t (spell body) h ->
  ends_open src title (Node (lv image url t) p cs) (LLink image body h url t) (hd_error r) ->
  (after = Some c_lbr -> bracket_after r = true) -> (after = Some c_lpar -> paren_after r = true) ->
  placed1 ENT space punct defs notes raw around (LLink image body h url t) before after
  /\ (linked = true -> linkless1 (LLink image body h url t)).
Proof.
  intros image url t p cs body h linked inner around before after r C F LP P IM IL HW O AB AP.
  assert (K : placed ENT space punct defs notes raw [] (Some c_lbr) body (Some c_rbr) /\ (inner = true -> linkless body)).
  { destruct C as [[L J]|(S0 & E & T)].
    - apply (kids_placed cs body inner [] (Some c_lbr) (Some c_rbr) true true F L J P); try discriminate; intros _; cbn [edge_at calm_at]; unfold edge.
      + rewrite (Punct c_lbr eq_refl), orb_true_r. reflexivity.
      + rewrite (Punct c_rbr eq_refl), orb_true_r. split; reflexivity.
    - destruct LP as (_ & _ & _ & _ & _ & [FL|[T0 N]]).
      + destruct (flat_placed body (Some c_lbr)) as [A B]; [rewrite E; apply flat_contents; exact FL|exact S0|]. auto.
      + destruct T as [T|T]; [congruence|]. destruct (not_both p N T). }
  destruct K as [K1 K2]. split.
  - cbn [placed1]. split; [exact (link_reads image url t p cs r body h after LP HW O AB AP)|].
    split; [|apply placed_body; exact K1]. intro I. apply K2. apply IM. exact I.
  - intro LK. cbn [linkless1]. split.
    + destruct image; [reflexivity|]. destruct (IM eq_refl) as [Q _]. congruence.
    + apply linkless_body. apply K2. exact (IL LK).
Qed.
Lemma node_placed : forall n, prose_is_placed n.
Proof.
  apply node_ind'. intros v p cs IH l linked around before after b r e L P O B A NA NP.
  inversion L; subst.
  - cbn [prose] in P. destruct P as [P1 P2]. split; [|intros _; exact Logic.I]. cbn [placed1].
    split; [apply words_bracket_free; replace (flat_map meaning ps) with (shown t) by (symmetry; assumption); exact P1|]. intros Q K.
    destruct (text_last ps t None) as (c & E & G & _); try assumption. rewrite E in Q. injection Q as ->.
    specialize (NA K). rewrite (P2 (G eq_refl)) in NA. discriminate NA.
  - split; [|intros _]; exact Logic.I.
  - split; [|intros _]; exact Logic.I.
  - split; [|intros _]; exact Logic.I.
  - cbn [prose] in P. eapply (mark_here false c cs); try eassumption;
      [match goal with H : delimiter_rule _ _ _ _ |- _ => apply emphasis_mark in H; exact H end|].
    unfold prose_inside. rewrite <- inside_eq. exact P.
  - cbn [prose] in P. eapply (mark_here true c cs); try eassumption;
      [match goal with H : delimiter_rule _ _ _ _ |- _ => apply strong_mark in H; exact H end|].
    unfold prose_inside. rewrite <- inside_eq. exact P.
  - destruct image; cbn [lv prose] in P.
    + destruct P as [LP P]. apply inside_eq in P. eapply (link_here true url t p cs body h linked linked); try eassumption; auto; discriminate.
    + destruct P as (LK & LP & P). apply inside_eq in P. eapply (link_here false url t p cs body h linked true); try eassumption; auto.
  - destruct image; cbn [lv prose] in P.
    + destruct P as [LP P]. apply inside_eq in P. eapply (link_here true url t p cs body h linked linked); try eassumption; auto; discriminate.
    + destruct P as (LK & LP & P). apply inside_eq in P. eapply (link_here false url t p cs body h linked true); try eassumption; auto.
  - cbn [prose] in P. destruct P as (LK & (_ & _ & _ & _ & AU & _) & _). split; [|congruence]. cbn [placed1]. left.
    split; [reflexivity|]. apply AU; auto.
  - cbn [prose] in P. split; [|intros _; exact Logic.I]. exact (P s eq_refl).
  - cbn [prose] in P. destruct P as (BA & PA & N1 & N2 & N3). split; [|intros _; exact Logic.I]. cbn [placed1].
    split; [exact N1|]. split; [intro Q; rewrite (NP Q) in PA; discriminate PA|]. split; [intro Q; rewrite (NA Q) in BA; discriminate BA|].
    split; [exact N2|exact N3].
Qed.
Theorem prose_placed : forall cs ls, Forall2 (lays U ENT o src title used) cs ls -> joined src title cs ls -> proses false [] true cs true ->
  placed ENT space punct defs notes raw [] None ls None.
Proof.
  intros cs ls L J P. apply (kids_placed cs ls false [] None None true true); try assumption; try discriminate.
  - apply Forall_forall. intros n _. apply node_placed.
  - intros _. exact Logic.I.
  - intros _. split; exact Logic.I.
Qed.
End Prose.

(** Prose is prose to every reader that finds the same footnotes. *)
Lemma prose_other : forall U ENT o src space punct defs defs' notes notes' raw title,
  (forall name, notes name = true -> defined defs (c_caret :: name) = None -> notes' name = true /\ defined defs' (c_caret :: name) = None) ->
  forall n linked around before r e,
  prose U ENT o src space punct defs notes raw title linked around n before r e ->
  prose U ENT o src space punct defs' notes' raw title linked around n before r e.
Proof.
  intros U ENT o src space punct defs defs' notes notes' raw title H.
  apply (node_ind' (fun n => forall linked around before r e,
    prose U ENT o src space punct defs notes raw title linked around n before r e ->
    prose U ENT o src space punct defs' notes' raw title linked around n before r e)).
  intros v p cs IH linked around before r e P.
  assert (K : forall lk ar b e, proses U ENT o src space punct defs notes raw title lk ar b cs e -> proses U ENT o src space punct defs' notes' raw title lk ar b cs e).
  { clear - IH. induction IH as [|c cs Hc _ IH]; intros lk ar b e P; [exact Logic.I|]. destruct P as [P1 P2]. split; [apply Hc; exact P1|apply IH; exact P2]. }
  destruct v; try exact P; cbn [prose] in P |- *.
  all: try (rewrite inside_eq in P; rewrite inside_eq).
  all: try (destruct P as (P1 & P2 & P3 & P4 & P5 & P6); repeat (split; [assumption|]); apply K; assumption).
  all: try (destruct P as (P1 & P2 & P3); repeat (split; [assumption|]); apply K; assumption).
  all: try (destruct P as (P1 & P2); repeat (split; [assumption|]); apply K; assumption).
  destruct P as (P1 & P2 & P3 & P4 & P5). destruct (H _ P3 P4). auto 6.
Qed.
Lemma proses_other : forall U ENT o src space punct defs defs' notes notes' raw title,
  (forall name, notes name = true -> defined defs (c_caret :: name) = None -> notes' name = true /\ defined defs' (c_caret :: name) = None) ->
  forall l linked around before e,
  proses U ENT o src space punct defs notes raw title linked around before l e ->
  proses U ENT o src space punct defs' notes' raw title linked around before l e.
Proof.
  intros U ENT o src space punct defs defs' notes notes' raw title H. induction l as [|c l IH]; intros linked around b e P; [exact Logic.I|].
  destruct P as [P1 P2]. split; [eapply prose_other; eassumption|apply IH; exact P2].
Qed.
