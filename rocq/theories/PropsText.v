(** C41 and C42: text as it is written from its source. *)
From Coq Require Import Bool Arith NArith Lia ZifyBool ZifyNat ZifyN String List.
From Verif Require Import Base BaseFacts EscapeModel OptsModel PunctModel WrapModel CodeModel TableModel HeadingModel
  AstModel StateModel InlineModel WarnModel SerModel SpecInline SpecText EscapeProof TextProof TextPlain.
Import ListNotations.

(** ** C42 *)

(** C42: a text node whose source reads as its text, and which no punctuation
    setting changes, is written as text that reads the same exactly if the
    source has no backslash escape other than of '*', '_', '`' and the
    backslash; then no such character is left unescaped, and everything but
    these characters is spelled as in the source. *)
Theorem C42_text_reads_back_partial : forall U ENT o src p t source,
  (forall n m, ENT n = Some m -> n <> [] /\ forallb is_ascii_alnum n = true) ->
  extract_source src p = Ok (Some source) ->
  read_text ENT source = t ->
  transform_punctuation U o t = t ->
  Forall ordinary (pieces ENT source) -> no_loose_number (pieces ENT source) ->
  exists out, inline_text U ENT o src p t = Ok (out, [])
    /\ (read_text ENT out = t <-> Forall special_escape (pieces ENT source))
    /\ (Forall special_escape (pieces ENT source) ->
        Forall2 (fun a b => a = b \/ exists c, special c = true /\ a = Plain c /\ b = Escaped c)
          (pieces ENT source) (pieces ENT out)
        /\ forall c, special c = true -> ~ In (Plain c) (pieces ENT out)).
Proof.
  intros U ENT o src p t source N X R T O L. exists (written ENT source).
  split.
  { unfold inline_text. rewrite X, T. cbn [rbind]. unfold wret. subst t. unfold written.
    rewrite (kept ENT N (List.length source) source (le_n _) O L). reflexivity. }
  split; [subst t; exact (written_reads ENT N source)|].
  intro G. rewrite (written_pieces ENT N (List.length source) source (le_n _) G). split.
  - induction (pieces ENT source) as [|q l IH]; [constructor|]. cbn [map]. constructor.
    + destruct q as [c|c|s m]; [|left; reflexivity|left; reflexivity]. cbn [inert].
      destruct (special c) eqn:S0; [right; exists c; auto|left; reflexivity].
    + apply IH; [now inversion O|exact (no_loose_tail _ _ L)|now inversion G].
  - intros c S0 I. apply in_map_iff in I. destruct I as (q & E & _).
    destruct q as [d|d|s m]; try discriminate E. cbn [inert] in E.
    destruct (special d) eqn:S1; [discriminate E|]. injection E as ->. congruence.
Qed.
Print Assumptions C42_text_reads_back_partial.

(** Two named entities. *)
Definition ent42 (n : str) : option str :=
  if seqb n (lit "lt") then Some [c_lt] else if seqb n (lit "gt") then Some [c_gt] else None.
Lemma ent42_names : forall n m, ent42 n = Some m -> n <> [] /\ forallb is_ascii_alnum n = true.
Proof.
  intros n m. unfold ent42. destruct (seqb n (lit "lt")) eqn:A.
  - apply seqb_true in A. subst. split; [discriminate|reflexivity].
  - destruct (seqb n (lit "gt")) eqn:B; [|discriminate]. apply seqb_true in B. subst. split; [discriminate|reflexivity].
Qed.
Definition text42 (source t : str) : W :=
  inline_text uni_ascii ent42 default_options [source] (mkPos 1 1 1 (List.length source)) t.

Example C42_example :
  read_text ent42 (lit "a\_b * &lt;c &#x41; & &lt \d \\") = lit "a_b * <c A & &lt \d \"
  /\ text42 (lit "a\_b * &lt;c &#x41; & &lt \d \\") (lit "a_b * <c A & &lt \d \")
     = Ok (lit "a\_b \* &lt;c &#x41; & &lt \\d \\", [])
  /\ read_text ent42 (lit "a\_b \* &lt;c &#x41; & &lt \\d \\") = lit "a_b * <c A & &lt \d \"
  /\ transform_punctuation uni_ascii default_options (lit "a_b * <c A & &lt \d \") = lit "a_b * <c A & &lt \d \"
  /\ Forall ordinary (pieces ent42 (lit "a\_b * &lt;c &#x41; & &lt \d \\"))
  /\ no_loose_number (pieces ent42 (lit "a\_b * &lt;c &#x41; & &lt \d \\"))
  /\ Forall special_escape (pieces ent42 (lit "a\_b * &lt;c &#x41; & &lt \d \\")).
Proof.
  split; [vm_compute; reflexivity|]. split; [vm_compute; reflexivity|]. split; [vm_compute; reflexivity|].
  split; [vm_compute; reflexivity|].
  split.
  { vm_compute. repeat constructor.
    - exists 60%N. split; [reflexivity|discriminate].
    - exists 65%N. split; [reflexivity|discriminate]. }
  split.
  { vm_compute. repeat split; intros [A B]; discriminate. }
  vm_compute. repeat constructor.
Qed.

(** C42, converted punctuation: if the source has no backslash and no ampersand,
    what is written reads as the text with its punctuation converted, whatever
    the settings; no special character is left unescaped. *)
Theorem C42_converted_reads_back : forall U ENT o src p t source,
  extract_source src p = Ok (Some source) ->
  read_text ENT source = t -> ~ In c_bs source -> ~ In c_amp source ->
  exists out, inline_text U ENT o src p t = Ok (out, [])
    /\ read_text ENT out = transform_punctuation U o t
    /\ forall c, special c = true -> ~ In (Plain c) (pieces ENT out).
Proof.
  intros U ENT o src p t source X R NB NA. exists (flat_map escape1 (transform_punctuation U o t)).
  assert (A : ~ In c_amp (transform_punctuation U o t)).
  { rewrite (plain_read ENT source NB NA) in R. subst t.
    pose proof (all_transform (fun c => c <> c_amp)) as G. intro I.
    assert (F : Forall (fun c => c <> c_amp) (transform_punctuation U o source)).
    { apply G; [unfold converted; repeat (apply Forall_cons; [discriminate|]); apply Forall_nil|].
      apply Forall_forall. intros c I' ->. contradiction. }
    rewrite Forall_forall in F. exact (F _ I eq_refl). }
  split; [unfold inline_text; rewrite X; cbn [rbind]; rewrite (preserving_plain ENT _ source NB NA); reflexivity|].
  split.
  - unfold read_text. rewrite (escaped_pieces ENT _ A). apply written1_meaning.
  - intros c S0. rewrite (escaped_pieces ENT _ A). apply written1_special. exact S0.
Qed.
Print Assumptions C42_converted_reads_back.
Example C42_converted_example :
  text42 (lit """it's"" a_b...") (lit """it's"" a_b...")
  = Ok ([c_ldq] ++ lit "it's" ++ [c_rdq] ++ lit " a\_b" ++ [c_ellipsis], [])
  /\ transform_punctuation uni_ascii default_options (lit """it's"" a_b...")
     = [c_ldq] ++ lit "it's" ++ [c_rdq] ++ lit " a_b" ++ [c_ellipsis].
Proof. split; vm_compute; reflexivity. Qed.

(** A document of one paragraph that is one line of text. *)
Definition doc42 (source t : str) : res str :=
  rbind (serialize_root uni_ascii [] ent42 default_options (Wasm None) [source] true true
           (Node NDocument (mkPos 1 1 1 (List.length source))
             [Node NParagraph (mkPos 1 1 1 (List.length source))
               [Node (NText t) (mkPos 1 1 1 (List.length source)) []]]))
    (fun s => Ok (output s)).
(** The line reads as [t]; what is written reads as [u], another text. *)
Definition misread42 (source t out u : str) : Prop :=
  read_text ent42 source = t /\ doc42 source t = Ok (out ++ [c_nl]) /\ read_text ent42 out = u /\ t <> u.

(** Any other escape gains a backslash: the full statement fails. *)
Theorem C42_escape_refuted : exists source t out u, misread42 source t out u.
Proof.
  exists (lit "1\. a"), (lit "1. a"), (lit "1\\. a"), (lit "1\. a").
  split; [vm_compute; reflexivity|]. split; [vm_compute; reflexivity|]. split; [vm_compute; reflexivity|discriminate].
Qed.
Print Assumptions C42_escape_refuted.
(** A number with more than seven digits is no reference; hongdown takes it
    for one, and puts it in the place of the next letter it stands for. *)
Example C42_long_number :
  misread42 (lit "&#00000065; A") (lit "&#00000065; A") (lit "&#00000065; &#00000065;") (lit "&#00000065; &#00000065;").
Proof. split; [vm_compute; reflexivity|]. split; [vm_compute; reflexivity|]. split; [vm_compute; reflexivity|discriminate]. Qed.

(** After a converted quotation mark the source is followed only from entity
    to entity: one that keeps text from being HTML is given to an earlier
    character, and a tag appears in the output. *)
Theorem C42_entity_refuted : exists source t out,
  read_text ent42 source = t /\ doc42 source t = Ok (out ++ [c_nl])
  /\ (~ exists a b, source = a ++ lit "<b>" ++ b) /\ exists a b, out = a ++ lit "<b>" ++ b.
Proof.
  exists (lit """1 < 2 > 0"" &lt;b&gt;"), (lit """1 < 2 > 0"" <b>"),
    ([c_ldq] ++ lit "1 &lt; 2 &gt; 0" ++ [c_rdq] ++ lit " <b>").
  split; [vm_compute; reflexivity|]. split; [vm_compute; reflexivity|]. split.
  - intros (a & b & E).
    assert (F : contains_sub (lit "<b>") (lit """1 < 2 > 0"" &lt;b&gt;") = false) by (vm_compute; reflexivity).
    rewrite E in F. clear E. unfold contains_sub in F.
    induction a as [|c a IH]; [discriminate F|]. apply IH. cbn [app find_sub] in F.
    destruct (starts_with (lit "<b>") (c :: a ++ lit "<b>" ++ b)); [discriminate F|].
    destruct (find_sub (lit "<b>") (a ++ lit "<b>" ++ b)); [discriminate F|reflexivity].
  - exists ([c_ldq] ++ lit "1 &lt; 2 &gt; 0" ++ [c_rdq] ++ lit " "), []. vm_compute. reflexivity.
Qed.
Print Assumptions C42_entity_refuted.

(** ** C41 *)

(** C41: escaped text without "[[", or without "]](", forms no link. *)
Fixpoint flags (prev : option char) (t : str) : list (bool * char) :=
  match t with
  | [] => []
  | c :: r => (esc_flag prev c r, c) :: flags (Some c) r
  end.
Lemma scan_flags : forall t prev, cm_scan (escape_text_from prev t) = flags prev t.
Proof.
  induction t as [|c r IH]; intro prev; [reflexivity|]. rewrite escape_text_unfold. cbn [flags].
  rewrite cm_scan_unit; [rewrite IH; reflexivity|apply esc_flag_punct|intro H; apply (esc_flag_false _ _ _ H)].
Qed.
Lemma infix_tail : forall (x : str) c r, (forall a b, c :: r <> a ++ x ++ b) -> forall a b, r <> a ++ x ++ b.
Proof. intros x c r H a b E. apply (H (c :: a) b). rewrite E. reflexivity. Qed.
Lemma forms_link_cons : forall d e c l,
  forms_link d ((e, c) :: l) = true ->
  (forms_link d l = true /\ (e = true \/ c <> c_lbr /\ (c <> c_rbr \/ d = 0)))
  \/ e = false /\ c = c_lbr /\ forms_link (S d) l = true
  \/ e = false /\ c = c_rbr /\ exists d', d = S d' /\ (forms_link d' l = true \/ exists l', l = (false, c_lpar) :: l').
Proof.
  intros d e c l. cbn [forms_link]. destruct e; [auto|].
  destruct (ceq_spec c c_lbr) as [->|N1]; [intro H; right; left; auto|].
  destruct (ceq_spec c c_rbr) as [->|N2]; [|intro H; left; auto].
  destruct d as [|d]; [intro H; left; auto|].
  intro H. right. right. split; [reflexivity|]. split; [reflexivity|]. exists d. split; [reflexivity|].
  destruct l as [|[[] q] l]; auto. destruct (ceq_spec q c_lpar) as [->|]; eauto.
Qed.
Lemma no_double_open : forall t prev, (forall a b, t <> a ++ [c_lbr; c_lbr] ++ b) -> forms_link 0 (flags prev t) = false.
Proof.
  induction t as [|c r IH]; intros prev H; [reflexivity|]. cbn [flags].
  destruct (forms_link 0 ((esc_flag prev c r, c) :: flags (Some c) r)) eqn:F; [|reflexivity]. exfalso.
  pose proof (IH (Some c) (infix_tail _ _ _ H)) as F2.
  apply forms_link_cons in F. destruct F as [[F _]|[(E & -> & F)|(_ & _ & d & D & _)]]; [congruence| |discriminate D].
  destruct r as [|n r]; [discriminate F|]. unfold esc_flag in E. cbn in E.
  destruct (ceq_spec n c_lbr) as [->|N].
  - apply (H [] r). reflexivity.
  - destruct n as [|n]; [discriminate E|]. revert E N. unfold c_lbr. cbn [N.eqb].
    destruct (Pos.eqb_spec n 91) as [->|]; [contradiction|]. cbn. discriminate.
Qed.
Lemma no_double_close : forall t prev d,
  (prev = None -> d = 0) ->
  (prev = Some c_rbr -> forall b, t <> [c_rbr; c_lpar] ++ b) ->
  (forall a b, t <> a ++ [c_rbr; c_rbr; c_lpar] ++ b) ->
  forms_link d (flags prev t) = false.
Proof.
  induction t as [|c r IH]; intros prev d H0 H1 H; [reflexivity|]. cbn [flags].
  destruct (forms_link d ((esc_flag prev c r, c) :: flags (Some c) r)) eqn:F; [|reflexivity]. exfalso.
  assert (K : forall d', forms_link d' (flags (Some c) r) = false).
  { intro d'. apply IH; [discriminate| |exact (infix_tail _ _ _ H)].
    intros E b ->. injection E as ->. apply (H [] b). reflexivity. }
  apply forms_link_cons in F. destruct F as [[F _]|[(_ & _ & F)|(E & -> & d' & -> & [F|(l' & F)])]];
    try (rewrite K in F; discriminate F).
  destruct r as [|n r]; [discriminate F|]. cbn [flags] in F. injection F as _ -> _.
  unfold esc_flag in E. destruct prev as [q|]; [|specialize (H0 eq_refl); discriminate H0].
  destruct (ceq_spec q c_rbr) as [->|]; [exact (H1 eq_refl _ eq_refl)|]. discriminate E.
Qed.
Theorem C41_brackets_partial : forall t,
  (forall a b, t <> a ++ lit "[[" ++ b) \/ (forall a b, t <> a ++ lit "]](" ++ b) ->
  forms_link 0 (cm_scan (escape_text t)) = false.
Proof.
  intros t [H|H]; unfold escape_text; rewrite scan_flags.
  - apply no_double_open. exact H.
  - apply no_double_close; [auto|discriminate|exact H].
Qed.
Print Assumptions C41_brackets_partial.
Example C41_brackets_example :
  escape_text (lit "see [a](b), ]](c) and [d][") = lit "see \[a\](b), ]](c) and \[d\]["
  /\ (forall a b, lit "see [a](b), ]](c) and [d][" <> a ++ lit "[[" ++ b).
Proof.
  split; [vm_compute; reflexivity|]. intros a b E.
  assert (F : contains_sub (lit "[[") (lit "see [a](b), ]](c) and [d][") = false) by (vm_compute; reflexivity).
  rewrite E in F. clear E. unfold contains_sub in F.
  induction a as [|c a IH]; [discriminate F|]. apply IH. cbn [app find_sub] in F.
  destruct (starts_with (lit "[[") (c :: a ++ lit "[[" ++ b)); [discriminate F|].
  destruct (find_sub (lit "[[") (a ++ lit "[[" ++ b)); [discriminate F|reflexivity].
Qed.

(** Where the source is known the text is escaped character by character, and
    a bracket standing alone is never escaped: text that was escaped so as not
    to be a link becomes one. *)
Theorem C41_escaped_link_refuted : exists source t out,
  forms_link 0 (cm_scan source) = false /\ read_text ent42 source = t
  /\ doc42 source t = Ok (out ++ [c_nl]) /\ forms_link 0 (cm_scan out) = true.
Proof.
  exists (lit "\[a\](b)"), (lit "[a](b)"), (lit "\\[a\\](b)"). repeat split; vm_compute; reflexivity.
Qed.
Print Assumptions C41_escaped_link_refuted.
