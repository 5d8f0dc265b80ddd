(** Text whose source has no backslash and no ampersand, whatever becomes of
    its punctuation. *)
From Coq Require Import Bool Arith NArith Lia ZifyBool ZifyNat ZifyN String List.
From Verif Require Import Base BaseFacts EscapeModel OptsModel PunctModel AstModel StateModel InlineModel
  SpecInline SpecText TextProof SpecEnd EndProof.
Import ListNotations.

(** ** The characters of converted text *)
Definition converted : list char := [c_emdash; c_endash; c_ellipsis; c_ldq; c_rdq; c_lsq; c_rsq].
Section Chars.
Variable P : char -> Prop.
Hypothesis new : Forall P converted.
Lemma is_new : forall c, In c converted -> P c.
Proof. intros c I. rewrite Forall_forall in new. exact (new c I). Qed.
Ltac nw := apply is_new; cbn; tauto.
Lemma all_ellipsis : forall n s, List.length s <= n -> Forall P s -> Forall P (transform_ellipsis s).
Proof.
  induction n as [|n IH]; intros s L F; [destruct s; [constructor|cbn in L; lia]|].
  destruct s as [|a r1]; [constructor|]. cbn [List.length] in L. inversion F as [|? ? Fa F1]; subst.
  assert (Plain : Forall P (a :: transform_ellipsis r1)) by (constructor; [exact Fa|apply IH; [lia|exact F1]]).
  cbn [transform_ellipsis]. destruct (ceq_spec a c_dot) as [->|]; [|exact Plain].
  destruct r1 as [|b [|c r3]]; try exact Plain. destruct (ceq b c_dot && ceq c c_dot); [|exact Plain].
  inversion F1 as [|? ? _ F2]; subst. inversion F2 as [|? ? _ F3]; subst. cbn [List.length] in L.
  destruct r3 as [|d r4]; [constructor; [nw|constructor]|]. inversion F3 as [|? ? _ F4]; subst. cbn [List.length] in L.
  destruct (ceq d c_dot).
  - constructor; [nw|]. constructor; [exact Fa|]. apply IH; [lia|exact F4].
  - constructor; [nw|]. apply IH; [cbn [List.length]; lia|exact F3].
Qed.
Lemma all_double : forall s prev e, Forall P s -> Forall P (transform_double_quotes_from prev e s).
Proof.
  induction s as [|c s IH]; intros prev e F; [constructor|]. inversion F as [|? ? Fa F1]; subst.
  cbn [transform_double_quotes_from]. destruct (ceq c c_dq); [destruct (should_be_opening_quote _ _ _)|];
    (constructor; [first [exact Fa|nw]|apply IH; exact F1]).
Qed.
Lemma all_single : forall U s prev e, Forall P s -> Forall P (transform_single_quotes_from U prev e s).
Proof.
  intro U. induction s as [|c s IH]; intros prev e F; [constructor|]. inversion F as [|? ? Fa F1]; subst.
  cbn [transform_single_quotes_from]. cbv zeta. destruct (ceq_spec c c_sq) as [->|]; (constructor; [|apply IH; exact F1]); [|exact Fa].
  unfold single_quote_step. cbv zeta.
  repeat match goal with |- context [if ?x then _ else _] => destruct x end; cbn [fst]; first [exact Fa|nw].
Qed.
Lemma all_apostrophes : forall U s prev e, Forall P s -> Forall P (transform_apostrophes_from U prev e s).
Proof.
  intro U. induction s as [|c s IH]; intros prev e F; [constructor|]. inversion F as [|? ? Fa F1]; subst.
  cbn [transform_apostrophes_from]. cbv zeta. destruct (ceq_spec c c_sq) as [->|]; (constructor; [|apply IH; exact F1]); [|exact Fa].
  unfold apostrophe_step. cbv zeta.
  repeat match goal with |- context [if ?x then _ else _] => destruct x end; cbn [fst]; first [exact Fa|nw].
Qed.
Lemma all_dashes : forall r pattern, P r -> forall fuel prev s,
  Forall P s -> Forall P (transform_dashes_from fuel prev pattern r s).
Proof.
  intros r pattern Pr. induction fuel as [|k IH]; intros prev s F; [exact F|]. destruct s as [|c rest]; [constructor|].
  inversion F as [|? ? Fa F1]; subst. cbn [transform_dashes_from].
  destruct (strip_prefix pattern (c :: rest)) as [after|] eqn:Sp; [|constructor; [exact Fa|apply IH; exact F1]].
  apply strip_prefix_app in Sp. assert (F2 : Forall P after).
  { rewrite Sp in F. apply Forall_app in F. exact (proj2 F). }
  destruct (List.length pattern =? 1); [|constructor; [exact Pr|apply IH; exact F2]]. cbv zeta.
  match goal with |- context [if ?x then _ else _] => destruct x end; constructor; auto.
Qed.
Lemma all_transform : forall U o s, Forall P s -> Forall P (transform_punctuation U o s).
Proof.
  intros U o s F. unfold transform_punctuation. cbv zeta.
  assert (D : forall d r s, P r -> Forall P s -> Forall P (match d return str with DPattern p => transform_dashes s p r | DDisabled => s end)).
  { intros [|p] r q Pr Fq; [exact Fq|]. unfold transform_dashes. destruct (is_nil p); [exact Fq|]. apply all_dashes; assumption. }
  assert (F1 : Forall P (match em_dash o return str with DPattern p => transform_dashes s p c_emdash | DDisabled => s end)) by (apply D; [nw|exact F]).
  revert F1. generalize (match em_dash o return str with DPattern p => transform_dashes s p c_emdash | DDisabled => s end). clear s F. intros s F.
  assert (F1 : Forall P (match en_dash o return str with DPattern p => transform_dashes s p c_endash | DDisabled => s end)) by (apply D; [nw|exact F]).
  revert F1. generalize (match en_dash o return str with DPattern p => transform_dashes s p c_endash | DDisabled => s end). clear s F. intros s F.
  assert (F1 : Forall P (if ellipsis o return str then transform_ellipsis s else s)) by (destruct (ellipsis o); [eapply all_ellipsis; [reflexivity|]|]; exact F).
  revert F1. generalize (if ellipsis o return str then transform_ellipsis s else s). clear s F. intros s F.
  assert (F1 : Forall P (if curly_double_quotes o return str then transform_double_quotes s else s)) by (destruct (curly_double_quotes o); [apply all_double|]; exact F).
  revert F1. generalize (if curly_double_quotes o return str then transform_double_quotes s else s). clear s F. intros s F.
  assert (F1 : Forall P (if curly_single_quotes o return str then transform_single_quotes U s else s)) by (destruct (curly_single_quotes o); [apply all_single|]; exact F).
  revert F1. generalize (if curly_single_quotes o return str then transform_single_quotes U s else s). clear s F. intros s F.
  destruct (curly_apostrophes o); [apply all_apostrophes|]; exact F.
Qed.
End Chars.
Lemma transform_not_nil : forall U o s, s <> [] -> transform_punctuation U o s <> [].
Proof.
  intros U o s N E. destruct (exists_last N) as (x & c & ->).
  pose proof (ends_transform (fun _ => True) (proj2 (Forall_forall _ _) (fun _ _ => Logic.I)) U o (x ++ [c]) (ends_one _ x c Logic.I)) as K.
  rewrite E in K. exact (ends_nil _ K).
Qed.

(** ** What is written *)
Section Plain.
Variable ENT : str -> option str.
Lemma preserving_plain : forall text source, ~ In c_bs source -> ~ In c_amp source ->
  escape_preserving ENT text source = flat_map escape1 text.
Proof.
  induction text as [|t text IH]; [reflexivity|]. intro source. cbn [flat_map].
  induction source as [|s source IHs]; intros NB NA.
  - cbn [escape_preserving]. rewrite IH by (intros []). reflexivity.
  - assert (B : s <> c_bs) by (intros ->; apply NB; left; reflexivity).
    assert (A : s <> c_amp) by (intros ->; apply NA; left; reflexivity).
    assert (NB' : ~ In c_bs source) by (intro; apply NB; right; assumption).
    assert (NA' : ~ In c_amp source) by (intro; apply NA; right; assumption).
    specialize (IHs NB' NA'). cbn [escape_preserving] in *. cbv zeta.
    destruct (ceq_spec s c_bs); [contradiction|]. destruct (ceq_spec s c_amp); [contradiction|].
    destruct source as [|e source'']; (destruct (ceq s t); [rewrite IH by assumption; reflexivity|exact IHs]).
Qed.
Definition written1 (c : char) : piece := if special c then Escaped c else Plain c.
Lemma escaped_pieces : forall text, ~ In c_amp text -> pieces ENT (flat_map escape1 text) = map written1 text.
Proof.
  induction text as [|t text IH]; intro N; [reflexivity|]. cbn [flat_map map].
  assert (A : t <> c_amp) by (intros ->; apply N; left; reflexivity).
  rewrite escape1_is. unfold written1 at 1. destruct (special t) eqn:S0.
  - cbn [app]. rewrite pieces_escaped by (apply (special_ascii t S0)). rewrite IH; [reflexivity|]. intro; apply N; right; assumption.
  - cbn [app]. rewrite pieces_plain; [rewrite IH; [reflexivity|intro; apply N; right; assumption]| |exact A].
    intros ->. discriminate S0.
Qed.
Lemma written1_meaning : forall text, flat_map meaning (map written1 text) = text.
Proof.
  induction text as [|t text IH]; [reflexivity|]. cbn [map flat_map]. rewrite IH. unfold written1. destruct (special t); reflexivity.
Qed.
Lemma written1_special : forall text c, special c = true -> ~ In (Plain c) (map written1 text).
Proof.
  intros text c S0 I. apply in_map_iff in I. destruct I as (d & E & _). unfold written1 in E.
  destruct (special d) eqn:S1; [discriminate E|]. injection E as ->. congruence.
Qed.
Lemma plain_read : forall source, ~ In c_bs source -> ~ In c_amp source -> read_text ENT source = source.
Proof.
  induction source as [|c r IH]; intros NB NA; [reflexivity|]. unfold read_text.
  rewrite pieces_plain; [|intros ->; apply NB; left; reflexivity|intros ->; apply NA; left; reflexivity].
  cbn [flat_map meaning app]. change (flat_map meaning (pieces ENT r)) with (read_text ENT r).
  rewrite IH; [reflexivity|intro; apply NB; right; assumption|intro; apply NA; right; assumption].
Qed.
End Plain.
