(** The last characters of what is written. *)
From Coq Require Import Bool Arith NArith Lia ZifyBool ZifyNat ZifyN String List.
From Verif Require Import Base BaseFacts EscapeModel OptsModel PunctModel WrapModel CodeModel TableModel HeadingModel AstModel StateModel
  InlineModel WarnModel SerModel SpecState SpecContext SpecDoc SpecEnd StateProof SerFacts SerBuilt ContextProof OutputProof DocProof.
Import ListNotations.

(** ** Strings that end in a character of a kind *)
Definition ends (P : char -> Prop) (s : str) : Prop := exists x c, s = x ++ [c] /\ P c.
Lemma ends_one : forall (P : char -> Prop) x c, P c -> ends P (x ++ [c]).
Proof. intros P x c H. exists x, c. auto. Qed.
Lemma ends_app : forall P a b, ends P b -> ends P (a ++ b).
Proof. intros P a b (x & c & -> & H). exists (a ++ x), c. rewrite app_assoc. auto. Qed.
Lemma ends_cons : forall P c s, ends P s -> ends P (c :: s).
Proof. intros P c s. apply (ends_app P [c]). Qed.
Lemma ends_inv : forall P c s, ends P (c :: s) -> (s = [] /\ P c) \/ ends P s.
Proof.
  intros P c s (x & d & E & H). destruct x as [|y x].
  - injection E as -> ->. left. auto.
  - injection E as -> ->. right. exists x, d. auto.
Qed.
Lemma ends_sub : forall (P Q : char -> Prop) s, (forall c, P c -> Q c) -> ends P s -> ends Q s.
Proof. intros P Q s H (x & c & E & K). exists x, c. auto. Qed.
Lemma ends_nil : forall P, ~ ends P [].
Proof. intros P (x & c & E & _). destruct x; discriminate E. Qed.
Lemma ends_tail : forall P a b, ends P (a ++ b) -> b <> [] -> ends P b.
Proof.
  intros P a b (x & c & E & H) N. destruct (exists_last N) as (b' & d & ->). rewrite app_assoc in E. apply app_inj_tail in E.
  destruct E as [_ ->]. exists b', c. auto.
Qed.
Lemma ends_trim_end : forall (P : char -> Prop) s, (forall c, P c -> is_ws c = false) -> ends P s -> trim_end s = s.
Proof. intros P s H (x & c & -> & K). apply trim_end_snoc_id. apply H. exact K. Qed.
Lemma ends_trim : forall (P : char -> Prop) s, (forall c, P c -> is_ws c = false) -> ends P s -> ends P (trim s).
Proof.
  intros P s H E. unfold trim. destruct (trim_start_app s) as (t & Es & F). 
  assert (K : ends P (trim_start s)).
  { rewrite Es in E. apply (ends_tail _ _ _ E). intro Z. rewrite Z, app_nil_r in E. destruct E as (x & c & -> & Pc).
    apply Forall_app in F. destruct F as [_ F]. inversion F as [|? ? W]. rewrite (H c Pc) in W. discriminate. }
  rewrite (ends_trim_end P _ H K). exact K.
Qed.
Lemma ends_once_nl : forall s, ends (fun c => c <> c_nl) s -> ends_once (s ++ [c_nl]).
Proof. intros s (x & c & -> & H). exists x, c. rewrite <- app_assoc. auto. Qed.
Lemma ends_once_app : forall a s, ends_once s -> ends_once (a ++ s).
Proof. intros a s (x & c & -> & H). exists (a ++ x), c. rewrite app_assoc. auto. Qed.
Lemma ends_repc : forall (P : char -> Prop) c n, P c -> 1 <= n -> ends P (repc c n).
Proof.
  intros P c n H L. destruct n as [|n]; [lia|]. exists (repc c n), c. split; [|exact H]. unfold repc.
  change (repeat c (S n) = repeat c n ++ repeat c 1). rewrite <- repeat_app. f_equal. lia.
Qed.

(** ** Punctuation and escapes *)
Section Last.
Variable P : char -> Prop.
Hypothesis mark : Forall P marks.
Lemma is_mark : forall c, In c marks -> P c.
Proof. intros c I. rewrite Forall_forall in mark. exact (mark c I). Qed.
Ltac mk := apply is_mark; cbn; tauto.

Lemma ends_ellipsis : forall n s, List.length s <= n -> ends P s -> ends P (transform_ellipsis s).
Proof.
  induction n as [|n IH]; intros s L E; [destruct s; [destruct (ends_nil _ E)|cbn in L; lia]|].
  destruct s as [|a r1]; [destruct (ends_nil _ E)|]. cbn [List.length] in L.
  assert (Plain : ends P (a :: transform_ellipsis r1)).
  { destruct (ends_inv _ _ _ E) as [[-> H]|H]; [apply (ends_one P [])|apply ends_cons, IH; [lia|]]; exact H. }
  cbn [transform_ellipsis]. destruct (ceq a c_dot); [|exact Plain].
  destruct r1 as [|b [|c r3]]; try exact Plain. destruct (ceq b c_dot && ceq c c_dot); [|exact Plain].
  cbn [List.length] in L. destruct r3 as [|d r4]; [apply (ends_one P []); mk|].
  assert (E3 : ends P (d :: r4)) by (apply (ends_tail _ [a; b; c] _ E); discriminate).
  destruct (ceq d c_dot) eqn:D.
  - destruct (ends_inv _ _ _ E3) as [[-> H]|H].
    + apply ceq_true in D. subst. apply (ends_one P [c_ellipsis]). exact H.
    + apply ends_cons, ends_cons, IH; [cbn in L; lia|exact H].
  - apply ends_cons, IH; [cbn in *; lia|exact E3].
Qed.
Lemma ends_double : forall s prev e, ends P s -> ends P (transform_double_quotes_from prev e s).
Proof.
  induction s as [|c s IH]; intros prev e E; [destruct (ends_nil _ E)|]. cbn [transform_double_quotes_from].
  destruct (ends_inv _ _ _ E) as [[-> H]|H].
  - cbn [hd_opt transform_double_quotes_from]. destruct (ceq c c_dq); [destruct (should_be_opening_quote _ _ _)|]; apply (ends_one P []); first [exact H|mk].
  - destruct (ceq c c_dq); [destruct (should_be_opening_quote _ _ _)|]; apply ends_cons, IH; exact H.
Qed.
Lemma single_step_mark : forall U prev rest e, fst (single_quote_step U prev rest e) = c_sq \/ In (fst (single_quote_step U prev rest e)) marks.
Proof.
  intros U prev rest e. unfold single_quote_step. cbv zeta.
  repeat match goal with |- context [if ?x then _ else _] => destruct x end; cbn; tauto.
Qed.
Lemma apostrophe_step_mark : forall U prev rest e, fst (apostrophe_step U prev rest e) = c_sq \/ In (fst (apostrophe_step U prev rest e)) marks.
Proof.
  intros U prev rest e. unfold apostrophe_step. cbv zeta.
  repeat match goal with |- context [if ?x then _ else _] => destruct x end; cbn; tauto.
Qed.
Lemma ends_single : forall U s prev e, ends P s -> ends P (transform_single_quotes_from U prev e s).
Proof.
  intro U. induction s as [|c s IH]; intros prev e E; [destruct (ends_nil _ E)|]. cbn [transform_single_quotes_from]. cbv zeta.
  destruct (ends_inv _ _ _ E) as [[-> H]|H].
  - destruct (ceq c c_sq) eqn:C; [|apply (ends_one P []); exact H]. apply ceq_true in C. subst. cbn [transform_single_quotes_from].
    apply (ends_one P []). destruct (single_step_mark U prev [] e) as [->|I]; [exact H|apply is_mark; exact I].
  - destruct (ceq c c_sq); apply ends_cons, IH; exact H.
Qed.
Lemma ends_apostrophes : forall U s prev e, ends P s -> ends P (transform_apostrophes_from U prev e s).
Proof.
  intro U. induction s as [|c s IH]; intros prev e E; [destruct (ends_nil _ E)|]. cbn [transform_apostrophes_from]. cbv zeta.
  destruct (ends_inv _ _ _ E) as [[-> H]|H].
  - destruct (ceq c c_sq) eqn:C; [|apply (ends_one P []); exact H]. apply ceq_true in C. subst. cbn [transform_apostrophes_from].
    apply (ends_one P []). destruct (apostrophe_step_mark U prev [] e) as [->|I]; [exact H|apply is_mark; exact I].
  - destruct (ceq c c_sq); apply ends_cons, IH; exact H.
Qed.
Lemma strip_prefix_app : forall p s r, strip_prefix p s = Some r -> s = p ++ r.
Proof.
  induction p as [|a p IH]; intros s r E; [injection E as ->; reflexivity|]. destruct s as [|b s]; [discriminate|]. cbn [strip_prefix] in E.
  destruct (ceq a b) eqn:Q; [|discriminate]. apply ceq_true in Q. subst. cbn [app]. f_equal. apply IH. exact E.
Qed.
Lemma ends_dashes_from : forall r pattern, P r -> pattern <> [] -> forall fuel prev s,
  List.length s <= fuel -> ends P s -> ends P (transform_dashes_from fuel prev pattern r s).
Proof.
  intros r pattern Pr Np. induction fuel as [|k IH]; intros prev s L E; [exact E|]. destruct s as [|c rest]; [destruct (ends_nil _ E)|].
  cbn [List.length] in L.
  assert (Keep : forall q, ends P (c :: transform_dashes_from k q pattern r rest)).
  { intro q. destruct (ends_inv _ _ _ E) as [[-> H]|H]; [destruct k; apply (ends_one P []); exact H|apply ends_cons, IH; [lia|exact H]]. }
  cbn [transform_dashes_from]. destruct (strip_prefix pattern (c :: rest)) as [after|] eqn:Sp; [|apply Keep].
  apply strip_prefix_app in Sp.
  assert (Rep : forall q, ends P (r :: transform_dashes_from k q pattern r after)).
  { intro q. destruct after as [|d after]; [destruct k; apply (ends_one P []); exact Pr|]. apply ends_cons, IH.
    - assert (List.length (c :: rest) = List.length (pattern ++ d :: after)) by congruence. rewrite app_length in H. cbn [List.length] in *.
      destruct pattern; [contradiction|cbn [List.length] in *; lia].
    - rewrite Sp in E. apply (ends_tail _ _ _ E). discriminate. }
  destruct (List.length pattern =? 1); [|apply Rep]. cbv zeta.
  match goal with |- context [if ?x then _ else _] => destruct x end; [apply Rep|apply Keep].
Qed.
Lemma ends_dashes : forall s pattern r, P r -> ends P s -> ends P (transform_dashes s pattern r).
Proof.
  intros s pattern r Pr E. unfold transform_dashes. destruct (is_nil pattern) eqn:N; [exact E|].
  apply ends_dashes_from; auto. intros ->. discriminate.
Qed.
Lemma ends_transform : forall U o s, ends P s -> ends P (transform_punctuation U o s).
Proof.
  intros U o s E. unfold transform_punctuation. cbv zeta.
  assert (E1 : ends P (match em_dash o with DPattern p => transform_dashes s p c_emdash | DDisabled => s end)).
  { destruct (em_dash o); [exact E|]. apply ends_dashes; [mk|exact E]. }
  revert E1. generalize (match em_dash o with DPattern p => transform_dashes s p c_emdash | DDisabled => s end). clear s E. intros s E.
  assert (E1 : ends P (match en_dash o with DPattern p => transform_dashes s p c_endash | DDisabled => s end)).
  { destruct (en_dash o); [exact E|]. apply ends_dashes; [mk|exact E]. }
  revert E1. generalize (match en_dash o with DPattern p => transform_dashes s p c_endash | DDisabled => s end). clear s E. intros s E.
  assert (E1 : ends P (if ellipsis o then transform_ellipsis s else s)) by (destruct (ellipsis o); [eapply ends_ellipsis; [reflexivity|]|]; exact E).
  revert E1. generalize (if ellipsis o then transform_ellipsis s else s). clear s E. intros s E.
  assert (E1 : ends P (if curly_double_quotes o then transform_double_quotes s else s)) by (destruct (curly_double_quotes o); [apply ends_double|]; exact E).
  revert E1. generalize (if curly_double_quotes o then transform_double_quotes s else s). clear s E. intros s E.
  assert (E1 : ends P (if curly_single_quotes o then transform_single_quotes U s else s)) by (destruct (curly_single_quotes o); [apply ends_single|]; exact E).
  revert E1. generalize (if curly_single_quotes o then transform_single_quotes U s else s). clear s E. intros s E.
  destruct (curly_apostrophes o); [apply ends_apostrophes|]; exact E.
Qed.

Lemma ends_escape_from : forall s prev, ends P s -> ends P (escape_text_from prev s).
Proof.
  induction s as [|c s IH]; intros prev E; [destruct (ends_nil _ E)|]. cbn [escape_text_from]. cbv zeta.
  destruct (ends_inv _ _ _ E) as [[-> H]|H].
  - cbn [escape_text_from]. rewrite app_nil_r.
    repeat match goal with |- context [if ?x then _ else _] => destruct x end; first [apply (ends_one P [])|apply (ends_one P [c_bs])]; exact H.
  - apply ends_app, IH. exact H.
Qed.
Lemma ends_escape1 : forall c, P c -> ends P (escape1 c).
Proof. intros c H. apply ends_escape_from. apply (ends_one P []). exact H. Qed.
Lemma entity_loop_ends : forall ENT n acc s e d, entity_loop ENT n acc s = Some (e, d) -> ends P e.
Proof.
  intros ENT. induction n as [|n IH]; intros acc s e d E; [discriminate|]. cbn [entity_loop] in E. destruct s as [|c r]; [discriminate|].
  destruct (ceq c c_semi) eqn:C.
  - destruct (decode_html_entity ENT (rev (c :: acc))); [|discriminate]. injection E as <- <-. cbn [rev]. apply ends_one.
    apply ceq_true in C. subst. mk.
  - destruct (_ && _); [discriminate|]. exact (IH _ _ _ _ E).
Qed.
Lemma entity_ends : forall ENT s e d, try_parse_html_entity ENT s = Some (e, d) -> ends P e.
Proof.
  intros ENT s e d E. unfold try_parse_html_entity in E. destruct s as [|c r]; [discriminate|]. destruct (ceq c c_amp); [|discriminate].
  eapply entity_loop_ends; exact E.
Qed.
Lemma ends_preserving : forall ENT text, ends P text -> forall source, ends P (escape_preserving ENT text source).
Proof.
  intros ENT text. induction text as [|t text IH]; intro E; [destruct (ends_nil _ E)|].
  assert (Go : forall x s, (text = [] -> ends P x) -> ends P (x ++ escape_preserving ENT text s)).
  { intros x s K. destruct (ends_inv _ _ _ E) as [[Z H]|H]; [|apply ends_app, IH; exact H].
    rewrite Z. cbn [escape_preserving]. rewrite app_nil_r. apply K. exact Z. }
  assert (Pt : text = [] -> P t).
  { intro Z. destruct (ends_inv _ _ _ E) as [[_ H]|H]; [exact H|rewrite Z in H; destruct (ends_nil _ H)]. }
  assert (E1 : text = [] -> ends P (escape1 t)) by (intro Z; apply ends_escape1, Pt, Z).
  induction source as [|s source' IHs]; [cbn [escape_preserving]; apply Go; exact E1|].
  cbn [escape_preserving] in *. cbv zeta.
  set (plain := if ceq s c_amp then _ else _).
  assert (Pl : ends P plain).
  { unfold plain. destruct (ceq s c_amp).
    - destruct (try_parse_html_entity ENT (s :: source')) as [[e d]|] eqn:T.
      + destruct (ceq d t); apply Go; [intros _; eapply entity_ends; exact T|exact E1].
      + destruct (ceq s t); [apply Go; exact E1|exact IHs].
    - destruct (ceq s t); [apply Go; exact E1|exact IHs]. }
  clearbody plain. destruct source' as [|e source'']; [exact Pl|].
  destruct (ceq s c_bs); [|exact Pl]. destruct (ceq t c_bs) eqn:Tb.
  - destruct (ceq e c_bs).
    + apply ceq_true in Tb. subst. apply (Go [c_bs; c_bs]). intro Z. apply (ends_one P [c_bs]). exact (Pt Z).
    + apply Go. exact E1.
  - destruct (ceq e t); [|apply Go; exact E1]. apply Go. intro Z.
    destruct (needs_escaping t); [apply (ends_one P [c_bs])|apply (ends_one P [c_bs; c_bs])]; exact (Pt Z).
Qed.

(** ** Inline content *)
Section Content.
Variable U : Uni.
Variable ENT : str -> option str.
Variable o : Options.
Variable src : list str.
Definition wends (w : W) : Prop := forall s evs, w = Ok (s, evs) -> ends P s.
Lemma wends_ret : forall s, ends P s -> wends (wret s).
Proof. intros s H x evs E. injection E as <- _. exact H. Qed.
Lemma wends_use : forall s label url t, ends P s -> wends (wuse s label url t).
Proof. intros s label url t H x evs E. injection E as <- _. exact H. Qed.
Lemma wends_app : forall a b, wends b -> wends (wapp a b).
Proof.
  intros [[x e]|] [[y f]|] H s evs E; try discriminate. injection E as <- _. apply ends_app. exact (H _ _ eq_refl).
Qed.
Lemma wends_bind : forall a f, (forall x, wends (f x)) -> wends (wbind a f).
Proof.
  intros [[x e]|] f H s evs E; [|discriminate]. unfold wbind in E. cbn [rbind fst snd] in E. destruct (f x) as [[y g]|] eqn:F; [|discriminate].
  injection E as <- _. exact (H _ _ _ F).
Qed.
Lemma wends_rbind : forall A (r : res A) f, (forall x, wends (f x)) -> wends (rbind r f).
Proof. intros A [x|] f H; [apply H|]. intros y evs E. discriminate. Qed.
Lemma wends_cat : forall l w, wends w -> wends (wcat (l ++ [w])).
Proof.
  intros l w H. induction l as [|a l IH]; cbn [app wcat fold_right].
  - intros s evs E. destruct w as [[x e]|]; [|discriminate]. cbn in E. injection E as <- _. rewrite app_nil_r. exact (H _ _ eq_refl).
  - apply wends_app. exact IH.
Qed.
Lemma with_next_last : forall A (f : option node -> node -> A) pre c, exists l, with_next f (pre ++ [c]) = l ++ [f None c].
Proof.
  intros A f pre c. induction pre as [|a pre [l IH]]; [exists []; reflexivity|]. exists (f (hd_error (pre ++ [c])) a :: l).
  cbn [app with_next]. rewrite IH. reflexivity.
Qed.
Lemma wends_text : forall p t, ends P t -> wends (inline_text U ENT o src p t).
Proof.
  intros p t E. apply wends_rbind. intros [x|]; apply wends_ret; [apply ends_preserving|apply ends_escape_from]; apply ends_transform; exact E.
Qed.
Lemma code_span_ends : forall l, ends P (format_code_span l).
Proof.
  intro l. unfold format_code_span. cbv zeta.
  assert (D : ends P (repc c_bt (if 0 <? backtick_loop 0 0 l then backtick_loop 0 0 l + 1 else 1))).
  { apply ends_repc; [mk|]. destruct (0 <? backtick_loop 0 0 l); lia. }
  match goal with |- ends _ (if ?x then _ else _) => destruct x end; repeat apply ends_app; exact D.
Qed.
Lemma valid_span_ends : forall s, is_valid_code_span s = true -> ends P s.
Proof.
  intros s V. unfold is_valid_code_span in V. destruct (is_nil s); [discriminate|]. cbv zeta in V.
  destruct (List.length (take_while (ceq c_bt) s) =? 0) eqn:L; [discriminate|]. apply andb_true_iff in V. destruct V as [V _].
  apply Nat.eqb_eq in V. apply Nat.eqb_neq in L. rewrite V in L. destruct (rev s) as [|c r] eqn:R; [cbn in L; lia|].
  cbn [take_while] in L. destruct (ceq c_bt c) eqn:C; [|cbn in L; lia]. apply ceq_true in C. subst.
  rewrite <- (rev_involutive s), R. cbn [rev]. apply ends_one. mk.
Qed.
Lemma wends_code : forall p l, wends (inline_code src p l).
Proof.
  intros p l. apply wends_rbind. intros x s evs E. injection E as <- _. destruct x as [x|]; [|apply code_span_ends].
  destruct (is_valid_code_span x) eqn:V; [|apply code_span_ends]. cbn [andb]. destruct (negb _); [apply valid_span_ends; exact V|apply code_span_ends].
Qed.
Lemma one_mark : forall c, In c marks -> ends P [c].
Proof. intros c I. apply (ends_one P []). apply is_mark. exact I. Qed.
Ltac om := first [apply (ends_one P [])|apply (ends_one P [c_rbr; c_lbr])|apply (ends_one P [c_rbr])|apply (ends_one P [c_lbr])]; mk.
Lemma wends_reference : forall op text label url t, wends (format_reference op text label url t).
Proof.
  intros op text label url t. unfold format_reference.
  destruct (strip_prefix [c_soh] label); [|destruct (seqb text label)]; apply wends_use; repeat apply ends_app; om.
Qed.
Lemma ends_inline_link : forall text url t, ends P (format_inline_link text url t).
Proof. intros. unfold format_inline_link. do 4 apply ends_app. apply ends_app. om. Qed.
Lemma ends_inline_image : forall text url t, ends P (format_inline_image text url t).
Proof. intros. unfold format_inline_image. do 4 apply ends_app. apply ends_app. om. Qed.
Lemma wends_external : forall text url t b, wends (format_external_link text url t b).
Proof.
  intros text url t b. apply wends_use. destruct b; [do 3 apply ends_app; om|]. rewrite app_nil_r. do 2 apply ends_app. om.
Qed.
Lemma emphasis_mark : forall n d, emphasis_delimiter src n = Ok d -> In d marks.
Proof.
  intros n d E. unfold emphasis_delimiter in E. destruct (text_contains c_star n); [injection E as <-; cbn; tauto|].
  destruct (extract_source src (node_pos n)) as [[x|]|]; try discriminate; injection E as <-; [destruct (starts_with _ x)|]; cbn; tauto.
Qed.
Lemma strong_mark : forall n d, strong_delimiter src n = Ok d -> ends P d.
Proof.
  intros n d E. unfold strong_delimiter in E.
  destruct (text_contains c_star n); [injection E as <-; apply (ends_one P [c_us]); mk|].
  destruct (extract_source src (node_pos n)) as [[x|]|]; try discriminate; injection E as <-; [destruct (starts_with _ x)|];
    first [apply (ends_one P [c_us]); mk|apply (ends_one P [c_star]); mk].
Qed.

Lemma firm_inline : forall n, firm P false n -> forall next, wends (collect_inline U ENT o src next n).
Proof.
  intros n F. induction F as [x c p cs Pc|l p cs|p cs|p cs|url t p cs|url t p cs|name p cs _|x c p cs _ Pc|p pre c F IH]; intro next;
    cbn [collect_inline]; cbv zeta.
  - apply wends_text. apply ends_one. exact Pc.
  - apply wends_code.
  - destruct (emphasis_delimiter src _) as [d|] eqn:D; [|intros s evs E; discriminate]. cbn [rbind]. apply wends_app, wends_app, wends_ret, one_mark.
    exact (emphasis_mark _ _ D).
  - destruct (strong_delimiter src _) as [d|] eqn:D; [|intros s evs E; discriminate]. cbn [rbind]. apply wends_app, wends_app, wends_ret.
    exact (strong_mark _ _ D).
  - apply wends_rbind. intros [[text label]|].
    + destruct (existsb is_image cs); [|apply wends_reference]. apply wends_app, wends_app, wends_use. do 2 apply ends_app. om.
    + destruct (existsb is_image cs); [apply wends_app, wends_app, wends_ret; do 3 apply ends_app; om|].
      destruct (_ && _); [apply wends_ret; unfold format_autolink; do 2 apply ends_app; om|].
      destruct (is_external_url url); apply wends_bind; intro link; [apply wends_external|apply wends_ret, ends_inline_link].
  - apply wends_rbind. intros [[text label]|]; [apply wends_reference|]. apply wends_bind. intro. apply wends_ret, ends_inline_image.
  - apply wends_ret. do 2 apply ends_app. om.
  - apply wends_ret. apply ends_one. exact Pc.
  - destruct (with_next_last W (collect_inline U ENT o src) pre c) as [l ->]. apply wends_cat. apply IH.
Qed.
Lemma firm_text : forall n, firm P true n -> wends (collect_text U ENT o src n).
Proof.
  intros n F. induction F as [x c p cs Pc|l p cs|p cs|p cs|url t p cs|url t p cs|name p cs T|x c p cs T Pc|p pre c F IH];
    try discriminate T; cbn [collect_text]; cbv zeta.
  - apply wends_text. apply ends_one. exact Pc.
  - apply wends_code.
  - destruct (emphasis_delimiter src _) as [d|] eqn:D; [|intros s evs E; discriminate]. cbn [rbind]. apply wends_app, wends_app, wends_ret, one_mark.
    exact (emphasis_mark _ _ D).
  - destruct (strong_delimiter src _) as [d|] eqn:D; [|intros s evs E; discriminate]. cbn [rbind]. apply wends_app, wends_app, wends_ret.
    exact (strong_mark _ _ D).
  - apply wends_rbind. intros [[text label]|]; [apply wends_reference|]. destruct (is_external_url url); [apply wends_external|apply wends_ret, ends_inline_link].
  - apply wends_ret, ends_inline_image.
  - rewrite map_app. apply wends_cat. exact IH.
Qed.
Lemma content_ends : forall p pre c, firm P false c -> wends (inline_content U ENT o src (Node NParagraph p (pre ++ [c]))).
Proof.
  intros p pre c F. unfold inline_content. cbn [node_children]. destruct (with_next_last W (collect_inline U ENT o src) pre c) as [l ->].
  apply wends_cat. apply firm_inline. exact F.
Qed.
Lemma title_ends : forall level p pre c, firm P true c -> wends (collect_text U ENT o src (Node (NHeading level) p (pre ++ [c]))).
Proof. intros level p pre c F. cbn [collect_text]. rewrite map_app. apply wends_cat. apply firm_text. exact F. Qed.
End Content.
End Last.

(** ** Wrapped text *)
Lemma split_last : forall (P : char -> Prop) ch s, (forall c, P c -> c <> ch) -> ends P s -> exists l y, split_on ch s = l ++ [y] /\ ends P y.
Proof.
  intros P ch0 s H (x & c & -> & Pc). induction x as [|a x (l & y & E & F)].
  - exists [], [c]. cbn [app split_on]. rewrite (proj2 (ceq_false c ch0) (H c Pc)). split; [reflexivity|]. apply (ends_one P []). exact Pc.
  - cbn [app split_on]. rewrite E. destruct (ceq a ch0); [exists ([] :: l), y; auto|]. destruct l as [|z l]; cbn [app].
    + exists [], (a :: y). split; [reflexivity|]. apply ends_cons. exact F.
    + exists ((a :: z) :: l), y. auto.
Qed.
Section Wrapped.
Variable U : Uni.
Lemma dark_ws : forall c, dark c -> is_ws c = false. Proof. intros c [H _]. exact H. Qed.
Lemma dark_nl : forall c, dark c -> c <> c_nl. Proof. intros c [H _] ->. discriminate H. Qed.
Lemma dark_nul : forall c, dark c -> c <> WrapModel.c_nul. Proof. intros c [_ H]. exact H. Qed.
Lemma dark_trim : forall s, ends dark s -> ends dark (trim s).
Proof. intros s. apply ends_trim. exact dark_ws. Qed.

Lemma single_ends : forall text fp cp lw, ends dark text -> ends dark (wrap_single_segment U text fp cp lw).
Proof.
  intros text fp cp lw (x & c & -> & D). unfold wrap_single_segment. cbv zeta. rewrite fold_left_app. cbn [fold_left].
  generalize (fold_left (wrap_step U (u_width U fp) cp lw) x (mkW [] fp true [] [] false 0)). intro s0.
  assert (T : exists t, w_token (wrap_step U (u_width U fp) cp lw s0 c) = t ++ [c]).
  { unfold wrap_step. assert (S : ceq c c_sp = false) by (apply ceq_false; intros ->; destruct D as [D _]; discriminate D). rewrite S.
    repeat match goal with |- context [if ?b then _ else _] => destruct b end; eexists; cbn [push_char w_token]; reflexivity. }
  destruct T as [t T]. set (s := wrap_step U (u_width U fp) cp lw s0 c) in *. clearbody s. rewrite T.
  assert (N : is_nil (t ++ [c]) = false) by (destruct t; reflexivity). rewrite N. cbn [negb].
  unfold add_token. rewrite app_nil_r.
  assert (F : forall r l, ends dark (if negb (is_nil (trim_end (l ++ t ++ [c]))) then r ++ trim_end (l ++ t ++ [c]) else r)).
  { intros r l. rewrite app_assoc, trim_end_snoc_id by (apply dark_ws; exact D).
    assert (N2 : is_nil ((l ++ t) ++ [c]) = false) by (destruct (l ++ t); reflexivity). rewrite N2. cbn [negb].
    apply ends_app, ends_one. exact D. }
  cbv zeta. repeat match goal with |- context [if ?b then (_, _, _) else _] => destruct b end; apply F.
Qed.
Lemma merge_ends : forall l m, (l = [] -> ends dark m) -> (forall a y, l = a ++ [y] -> ends dark y) -> ends dark (merge_rest m l).
Proof.
  induction l as [|z l IH]; intros m H K; cbn [merge_rest]; [apply H; reflexivity|]. apply IH.
  - intros ->. do 2 apply ends_app. apply dark_trim. apply (K [] z). reflexivity.
  - intros a y ->. apply (K (z :: a) y). reflexivity.
Qed.
Lemma merge_last : forall l y m, ends dark y -> ends dark (merge_rest m (l ++ [y])).
Proof.
  intros l y m Y. apply merge_ends; [intro Z; destruct l; discriminate Z|]. intros a z E. apply app_inj_tail in E. destruct E as [_ <-]. exact Y.
Qed.
Lemma segment_loop_ends : forall l y result prefix lw, ends dark y -> ends dark (segment_loop U result (l ++ [y]) prefix lw).
Proof.
  induction l as [|z l IH]; intros y result prefix lw Y; cbn [app segment_loop]; cbv zeta.
  - destruct (_ <=? _); [do 2 apply ends_app; apply dark_trim; exact Y|]. apply ends_app, single_ends. apply dark_trim. exact Y.
  - destruct (_ <=? _); [apply IH; exact Y|]. apply ends_app, single_ends, merge_last. exact Y.
Qed.
Lemma first_segment_loop_ends : forall l y result first fp cp lw, ends dark y -> ends dark (first_segment_loop U result first (l ++ [y]) fp cp lw).
Proof.
  induction l as [|z l IH]; intros y result first fp cp lw Y; cbn [app first_segment_loop]; cbv zeta.
  - destruct (_ <=? _); [do 2 apply ends_app; apply dark_trim; exact Y|]. apply ends_app, single_ends. apply dark_trim. exact Y.
  - destruct (_ <=? _); [apply IH; exact Y|]. apply ends_app, single_ends, merge_last. exact Y.
Qed.
Lemma segment_ends : forall text prefix lw, ends dark text -> ends dark (wrap_text_segment U text prefix lw).
Proof.
  intros text prefix lw E. unfold wrap_text_segment. destruct (split_last dark WrapModel.c_nul text dark_nul E) as (l & y & -> & Y).
  destruct l as [|a l]; [apply single_ends; exact E|]. cbn [app].
  pose proof (segment_loop_ends (a :: l) y [] prefix lw Y) as F. cbn [app] in F. destruct (l ++ [y]) eqn:Z; [destruct l; discriminate Z|exact F].
Qed.
Lemma first_segment_ends : forall text fp cp lw, ends dark text -> ends dark (wrap_text_first_line_segment U text fp cp lw).
Proof.
  intros text fp cp lw E. unfold wrap_text_first_line_segment. destruct (split_last dark WrapModel.c_nul text dark_nul E) as (l & y & -> & Y).
  destruct l as [|a l]; [apply single_ends; exact E|]. cbn [app].
  pose proof (first_segment_loop_ends (a :: l) y [] true fp cp lw Y) as F. cbn [app] in F. destruct (l ++ [y]) eqn:Z; [destruct l; discriminate Z|exact F].
Qed.
Lemma hard_loop_ends : forall l y result first prefix lw, ends dark y -> ends dark (hard_loop U result first (l ++ [y]) prefix lw).
Proof.
  induction l as [|z l IH]; intros y result first prefix lw Y; cbn [app hard_loop]; [|apply IH; exact Y].
  apply ends_app, segment_ends. exact Y.
Qed.
Lemma first_hard_loop_ends : forall l y result first fp cp lw, ends dark y -> ends dark (first_hard_loop U result first (l ++ [y]) fp cp lw).
Proof.
  induction l as [|z l IH]; intros y result first fp cp lw Y; cbn [app first_hard_loop]; cbv zeta; [|apply IH; exact Y].
  apply ends_app, first_segment_ends. exact Y.
Qed.
Lemma wrap_text_ends : forall text prefix lw, ends dark text -> ends dark (wrap_text U text prefix lw).
Proof.
  intros text prefix lw E. unfold wrap_text. destruct (split_last dark c_nl text dark_nl E) as (l & y & -> & Y).
  destruct l as [|a l]; [apply segment_ends; exact E|]. cbn [app].
  pose proof (hard_loop_ends (a :: l) y [] true prefix lw Y) as F. cbn [app] in F. destruct (l ++ [y]) eqn:Z; [destruct l; discriminate Z|exact F].
Qed.
Lemma wrap_first_ends : forall text fp cp lw, ends dark text -> ends dark (wrap_text_first_line U text fp cp lw).
Proof.
  intros text fp cp lw E. unfold wrap_text_first_line. destruct (split_last dark c_nl text dark_nl E) as (l & y & -> & Y).
  destruct l as [|a l]; [apply first_segment_ends; exact E|]. cbn [app].
  pose proof (first_hard_loop_ends (a :: l) y [] true fp cp lw Y) as F. cbn [app] in F. destruct (l ++ [y]) eqn:Z; [destruct l; discriminate Z|exact F].
Qed.
End Wrapped.
Lemma dark_marks : Forall dark marks.
Proof. repeat constructor; discriminate. Qed.
Lemma solid_marks : Forall (fun c => c <> c_nl) marks.
Proof. repeat constructor; discriminate. Qed.

(** ** Blocks *)
Section Blocks.
Variable U : Uni.
Variable PN : list (str * str).
Variable ENT : str -> option str.
Variable o : Options.
Variable B : backend.
Variable src : list str.
Variable ends_nl : bool.
Variable checks : bool.
Notation ser := (serialize U PN ENT o B src ends_nl checks).
Definition ltype (c c' : ctx) : Prop := list_type c' = list_type c.
Lemma ltype_refl : forall c, ltype c c. Proof. reflexivity. Qed.
Lemma ltype_trans : forall a b c, ltype a b -> ltype b c -> ltype a c. Proof. unfold ltype. congruence. Qed.
Lemma serialize_ltype : forall n next s s', ser next n s = Ok s' -> ltype (cx s) (cx s').
Proof.
  intros n next. refine (proj1 (kr_serialize U PN ENT o B src ends_nl checks ltype ltype false
    ltype_refl ltype_trans ltype_trans (fun _ _ H => H) (fun _ _ _ H => H) _ _ _ _ _ _ n next) _); [..|discriminate]; unfold ltype; cbn; auto.
Qed.
Definition keeps_type (k : kids) : Prop := Forall (fun x => forall s s', snd x s = Ok s' -> ltype (cx s) (cx s')) k.
Lemma kids_last : forall pre c, exists k, combine (pre ++ [c]) (with_next ser (pre ++ [c])) = k ++ [(c, ser None c)] /\ keeps_type k.
Proof.
  intros pre c. induction pre as [|a pre (k & E & F)]; [exists []; split; [reflexivity|constructor]|].
  exists ((a, ser (hd_error (pre ++ [c])) a) :: k). cbn [app with_next combine]. rewrite E. split; [reflexivity|].
  constructor; [apply serialize_ltype|exact F].
Qed.
Lemma children_last : forall k x s s', keeps_type k -> children_acts (k ++ [x]) s = Ok s' ->
  exists m, list_type (cx m) = list_type (cx s) /\ snd x m = Ok s'.
Proof.
  intros k x s s' K E. unfold children_acts in E. rewrite map_app, all_app in E. apply seqa_ok in E. destruct E as (m & E1 & E2).
  cbn [map all fold_right] in E2. apply seqa_ok in E2. destruct E2 as (m2 & E2 & E3). injection E3 as <-. exists m. split; [|exact E2].
  revert E1. apply (kr_all ltype ltype_refl ltype_trans). apply Forall_map. exact K.
Qed.
Lemma quote_last : forall k x indent prefix first s s', keeps_type k -> blockquote_children indent prefix first (k ++ [x]) s = Ok s' ->
  exists m, list_type (cx m) = list_type (cx s) /\ snd x m = Ok s'.
Proof.
  induction k as [|[n a] k IH]; intros [c b] indent prefix first s s' K E; cbn [app blockquote_children] in E;
    apply seqa_ok in E; destruct E as (m & E1 & E); apply seqa_ok in E; destruct E as (m2 & E2 & E3);
    assert (Q : list_type (cx m) = list_type (cx s)) by (destruct first; injection E1 as <-; reflexivity).
  - injection E3 as <-. exists m. auto.
  - inversion K as [|? ? Ka Kk]; subst. destruct (IH _ _ _ _ _ _ Kk E3) as (m3 & L & E4). exists m3. split; [|exact E4].
    rewrite L, <- Q. apply Ka. exact E2.
Qed.
Lemma item_last : forall k x base prev s s', keeps_type k -> item_children o B base prev (k ++ [x]) s = Ok s' ->
  exists m prev', list_type (cx m) = list_type (cx s) /\ item_children o B base prev' [x] m = Ok s'.
Proof.
  intros k x base. induction k as [|[n a] k IH]; intros prev s s' K E; [exists s, prev; auto|].
  cbn [app item_children] in E. apply seqa_ok in E. destruct E as (m & E1 & E2). inversion K as [|? ? Ka Kk]; subst.
  destruct (IH _ _ _ Kk E2) as (m2 & prev' & L & E3). exists m2, prev'. split; [|exact E3]. rewrite L.
  assert (Q : (item_children o B base prev [(n, a)]) s = Ok m).
  { cbn [item_children]. apply seqa_ok. exists m. auto. }
  revert Q. apply (kr_item_children o B ltype ltype_refl ltype_trans). constructor; [exact Ka|constructor].
Qed.
Lemma details_last : forall k x quote first s s', keeps_type k -> details_children U ENT o B src quote first (k ++ [x]) s = Ok s' ->
  exists m first', list_type (cx m) = list_type (cx s) /\ details_children U ENT o B src quote first' [x] m = Ok s'.
Proof.
  intros k x quote. induction k as [|[n a] k IH]; intros first s s' K E; [exists s, first; auto|].
  cbn [app details_children] in E. apply seqa_ok in E. destruct E as (m & E1 & E2). inversion K as [|? ? Ka Kk]; subst.
  destruct (IH _ _ _ Kk E2) as (m2 & prev' & L & E3). exists m2, prev'. split; [|exact E3]. rewrite L.
  assert (Q : (details_children U ENT o B src quote first [(n, a)]) s = Ok m).
  { cbn [details_children]. apply seqa_ok. exists m. auto. }
  revert Q. apply (kr_details_children U ENT o B src ltype ltype_refl ltype_trans); [unfold ltype; cbn; auto..|]. constructor; [exact Ka|constructor].
Qed.
Lemma description_last : forall k x first s s', keeps_type k -> description_list first (k ++ [x]) s = Ok s' ->
  exists m, list_type (cx m) = list_type (cx s) /\ snd x m = Ok s'.
Proof.
  induction k as [|[n a] k IH]; intros [c b] first s s' K E; cbn [app description_list] in E;
    apply seqa_ok in E; destruct E as (m & E1 & E); apply seqa_ok in E; destruct E as (m2 & E2 & E3);
    assert (Q : list_type (cx m) = list_type (cx s))
      by (destruct first; [injection E1 as <-; reflexivity|unfold get in E1; destruct (in_block_quote (cx s)); injection E1 as <-; reflexivity]).
  - injection E3 as <-. exists m. auto.
  - inversion K as [|? ? Ka Kk]; subst. destruct (IH _ _ _ _ Kk E3) as (m3 & L & E4). exists m3. split; [|exact E4].
    rewrite L, <- Q. apply Ka. exact E2.
Qed.

Lemma inline_ok : forall w k s s', inline w k s = Ok s' ->
  exists x evs m, w = Ok (x, evs) /\ output m = output s /\ cx m = cx s /\ k x m = Ok s'.
Proof.
  intros [[x evs]|] k s s' E; [|discriminate]. cbn [inline] in E. apply seqa_ok in E. destruct E as (m & E1 & E2).
  exists x, evs, m. split; [reflexivity|]. split; [exact (DocProof.events_output _ _ _ E1)|]. split; [exact (keeps_events _ _ _ E1)|exact E2].
Qed.
Lemma code_ok : forall f s s', code_act f s = Ok s' -> exists n, output s' = output s ++ fst (f n).
Proof.
  intros f s s' E. unfold code_act, get in E. exists (List.length (calls s)). destruct (f (List.length (calls s))) as [text eff].
  apply seqa_ok in E. destruct E as (m & E1 & E). apply seqa_ok in E. destruct E as (m2 & E2 & E3).
  injection E1 as <-. injection E2 as <-. injection E3 as <-. reflexivity.
Qed.
Definition solid (c : char) : Prop := c <> c_nl.
Lemma dark_solid : forall s, ends dark s -> ends solid s.
Proof. intro s. apply ends_sub. exact dark_nl. Qed.
Lemma once_nl : forall s, ends dark s -> ends_once (s ++ [c_nl]).
Proof. intros s E. apply ends_once_nl. apply dark_solid. exact E. Qed.
Lemma fence_solid : forall n, 1 <= n -> ends solid (repc (fence_char_char (fence_char o)) n).
Proof. intros n L. apply ends_repc; [|exact L]. destruct (fence_char o); discriminate. Qed.
Lemma fence_for_solid : forall content, ends solid (fence_for o content).
Proof. intro content. apply fence_solid. lia. Qed.
Lemma code_block_once : forall q n info l, ends_once (fst (code_block o B q n info l)).
Proof.
  intros q n info l. unfold code_block. destruct (code_parts o B n info l) as [[oi content] eff]. cbn [fst].
  do 5 apply ends_once_app. rewrite app_assoc. apply ends_once_nl. apply ends_app. apply fence_for_solid.
Qed.
Lemma code_indented_once : forall q n info l base, ends_once (fst (code_block_indented o B q n info l base)).
Proof.
  intros q n info l base. unfold code_block_indented. destruct (code_parts o B n info l) as [[oi content] eff]. cbn [fst].
  do 4 apply ends_once_app. rewrite !app_assoc. apply ends_once_nl. apply ends_app. apply fence_for_solid.
Qed.
Lemma contains_nil : forall s, contains_sub [] s = true.
Proof. intro s. unfold contains_sub, find_sub. destruct s; reflexivity. Qed.
Lemma code_with_indent_once : forall n info l base, ends_once (fst (code_block_with_indent o B n info l base)).
Proof.
  intros n info l base. unfold code_block_with_indent. cbv zeta. destruct (code_parts o B n info l) as [[oi content] eff]. cbn [fst].
  do 4 apply ends_once_app. rewrite !app_assoc. apply ends_once_nl. apply ends_app.
  destruct (min_fence_length o) as [|k] eqn:M.
  - unfold repc at 1. cbn [repeat]. rewrite contains_nil. apply fence_solid. lia.
  - destruct (contains_sub _ _); apply fence_solid; lia.
Qed.
Lemma flat_map_last : forall A (f : A -> str) l a, flat_map f (l ++ [a]) = flat_map f l ++ f a.
Proof. intros A f l a. rewrite flat_map_app. cbn [flat_map]. rewrite app_nil_r. reflexivity. Qed.
Lemma row_solid : forall cells ws aligns, ends solid ([c_pipe] ++ row_cells_text U ws aligns cells).
Proof.
  assert (Z : forall cells ws aligns x, ends solid x -> ends solid (x ++ row_cells_text U ws aligns cells)).
  { induction cells as [|c cells IH]; intros ws aligns x X; cbn [row_cells_text]; [rewrite app_nil_r; exact X|].
    change ([c_sp] ++ ?a) with ([c_sp] ++ a). rewrite !app_assoc. apply IH. apply (ends_app solid _ (lit " |")). apply (ends_one solid [c_sp]). discriminate. }
  intros cells ws aligns. apply Z. apply (ends_one solid []). discriminate.
Qed.
Lemma delimiters_solid : forall aligns ws, ends solid ([c_pipe] ++ delimiter_cells_text ws aligns).
Proof.
  assert (Z : forall aligns ws x, ends solid x -> ends solid (x ++ delimiter_cells_text ws aligns)).
  { induction aligns as [|c aligns IH]; intros ws x X; cbn [delimiter_cells_text]; [rewrite app_nil_r; exact X|].
    rewrite !app_assoc. apply IH. apply (ends_app solid _ (lit " |")). apply (ends_one solid [c_sp]). discriminate. }
  intros aligns ws. apply Z. apply (ends_one solid []). discriminate.
Qed.
Lemma row_once : forall q ws aligns cells, ends_once (row_text U q ws aligns cells).
Proof. intros. unfold row_text. apply ends_once_app. rewrite app_assoc. apply ends_once_nl. apply row_solid. Qed.
Lemma table_once : forall q aligns rows, rows <> [] -> ends_once (table_text U q aligns rows).
Proof.
  intros q aligns rows N. unfold table_text. destruct (map (map escape_table_cell) rows) as [|header body] eqn:M.
  - destruct rows; [contradiction|discriminate M].
  - cbv zeta. apply ends_once_app. destruct body as [|b0 body0] eqn:Bd.
    + cbn [flat_map]. rewrite app_nil_r. apply ends_once_app. rewrite app_assoc. apply ends_once_nl. apply delimiters_solid.
    + apply ends_once_app. rewrite <- Bd. assert (Nb : body <> []) by (rewrite Bd; discriminate).
      destruct (exists_last Nb) as (l & x & ->). rewrite flat_map_last. apply ends_once_app. apply row_once.
Qed.
Lemma table_rows_nonempty : forall rows cells evs, rows <> [] -> table_rows U ENT o src rows = Ok (cells, evs) -> cells <> [].
Proof.
  intros [|r rows] cells evs N E; [contradiction|]. cbn [table_rows] in E. destruct (rcollect _) as [[x e]|]; [|discriminate]. cbn [rbind] in E.
  destruct (table_rows U ENT o src rows) as [[y f]|]; [|discriminate]. injection E as <- _. discriminate.
Qed.
Lemma trim_core_dark : forall s, trim s <> [] -> ends (fun c => is_ws c = false) (trim s).
Proof. intros s N. unfold trim in *. destruct (trim_end_last (trim_start s)) as [Z|(a & c & -> & W)]; [contradiction|]. exists a, c. auto. Qed.

Lemma paragraph_outside : forall n p pre c next s s', n = Node NParagraph p (pre ++ [c]) -> firm dark false c ->
  list_type (cx s) = None -> ser next n s = Ok s' -> ends_once (output s').
Proof.
  intros n p pre c next s s' -> F L E. cbn [serialize] in E. cbv zeta in E. unfold paragraph in E. cbn [node_pos] in E.
  destruct (extract_source src p) as [source|]; [|discriminate].
  match type of E with (match ?a with Some _ => _ | None => _ end) _ = _ => destruct a as [t|] eqn:A end.
  - destruct source as [x|]; [|discriminate]. destruct (starts_with (lit "*[") (trim x) && _) eqn:Q; [|discriminate]. injection A as <-.
    injection E as <-. cbn [output set_output]. apply ends_once_app, ends_once_nl.
    apply (ends_sub (fun c => is_ws c = false)); [intros ? W ->; discriminate W|].
    apply trim_core_dark. intro Z. rewrite Z in Q. discriminate Q.
  - apply inline_ok in E. destruct E as (x & evs & m & Ew & Om & Cm & E). unfold get in E. rewrite Cm, L in E.
    injection E as <-. cbn [output set_output]. apply ends_once_app. apply once_nl. apply wrap_text_ends.
    exact (content_ends dark dark_marks U ENT o src p pre c F x evs Ew).
Qed.
Lemma paragraph_inside : forall p pre c next s s' kind, firm dark false c -> unabbreviated src p ->
  list_type (cx s) = Some kind -> ser next (Node NParagraph p (pre ++ [c])) s = Ok s' -> ends dark (output s').
Proof.
  intros p pre c next s s' kind F Un L E. cbn [serialize] in E. cbv zeta in E. unfold paragraph in E. cbn [node_pos] in E.
  unfold unabbreviated in Un. destruct (extract_source src p) as [source|]; [|discriminate].
  match type of E with (match ?a with Some _ => _ | None => _ end) _ = _ => destruct a as [t|] eqn:A end.
  - exfalso. destruct source as [x|]; [|discriminate]. destruct (starts_with (lit "*[") (trim x)) eqn:Q; [|discriminate].
    unfold starts_with in Q. destruct (strip_prefix (lit "*[") (trim x)) as [r|] eqn:Sp; [|discriminate]. apply strip_prefix_app in Sp.
    destruct (trim_app x) as (a & b & Ex & _). apply (Un x eq_refl a (r ++ b)). rewrite Sp, <- app_assoc in Ex. exact Ex.
  - apply inline_ok in E. destruct E as (x & evs & m & Ew & Om & Cm & E). unfold get in E. rewrite Cm, L in E.
    injection E as <-. cbn [output set_output]. apply ends_app. apply wrap_first_ends. apply dark_trim.
    exact (content_ends dark dark_marks U ENT o src p pre c F x evs Ew).
Qed.

Lemma spaces_solid : forall x n, ends solid x -> ends solid (x ++ spaces n).
Proof.
  intros x n E. destruct n as [|n]; [rewrite app_nil_r; exact E|]. apply ends_app. apply ends_repc; [discriminate|lia].
Qed.
Lemma marker_solid : forall c kind, list_type c = Some kind -> ends solid (item_marker o c).
Proof.
  intros c kind L. unfold item_marker. rewrite L. destruct kind.
  - apply ends_app. apply (spaces_solid [_]). apply (ends_one solid []). destruct (unordered_marker o); discriminate.
  - cbv zeta. apply ends_app. apply (spaces_solid [_]). apply (ends_one solid []).
    destruct (list_depth c mod 2 =? 1); [destruct (odd_level_marker o)|destruct (even_level_marker o)]; discriminate.
Qed.
Lemma head_solid : forall c kind task, list_type c = Some kind -> ends solid (item_head o c task).
Proof.
  intros c kind task L. unfold item_head. do 3 apply ends_app. destruct task as [[x|]|].
  - apply ends_app. apply (ends_one solid (lit "[x]")). discriminate.
  - apply ends_app. apply (ends_one solid (lit "[ ]")). discriminate.
  - rewrite app_nil_r. eapply marker_solid. exact L.
Qed.
Lemma last_child_snoc : forall k n a, last_child (k ++ [(n, a)]) = Some n.
Proof. induction k as [|[m b] k IH]; intros n a; [reflexivity|]. cbn [app last_child]. rewrite IH. destruct (k ++ [(n, a)]) eqn:Z; [destruct k; discriminate Z|reflexivity]. Qed.

(** ** A tidy block ends in exactly one newline *)
Definition at_end (n : node) : Prop := forall next s s',
  list_type (cx s) = None \/ ends_with_newline_kind n = true -> ser next n s = Ok s' -> ends_once (output s').

Lemma list_item_last : forall task k c a s s' kind, keeps_type k -> list_type (cx s) = Some kind ->
  (forall prev base m m', list_type (cx m) = Some kind -> item_children o B base prev [(c, a)] m = Ok m' ->
     if ends_with_newline_kind c then ends_once (output m') else ends solid (output m')) ->
  list_item o B task (k ++ [(c, a)]) s = Ok s' -> ends_once (output s').
Proof.
  intros task k c a s s' kind K L H E. unfold list_item in E. apply seqa_ok in E. destruct E as (m & E1 & E). injection E1 as <-.
  unfold get in E. apply seqa_ok in E. destruct E as (m1 & E1 & E). injection E1 as <-.
  destruct (item_base_indent _ _) as [base|]; [|discriminate]. apply seqa_ok in E. destruct E as (m2 & E2 & E). injection E2 as <-.
  apply seqa_ok in E. destruct E as (m3 & E3 & E). apply seqa_ok in E. destruct E as (m4 & E4 & E). injection E4 as <-.
  destruct (item_last _ _ _ _ _ _ K E3) as (m & prev & Lm & Em). cbn in Lm. rewrite L in Lm. specialize (H _ _ _ _ Lm Em).
  rewrite last_child_snoc in E. destruct (ends_with_newline_kind c); injection E as <-; [exact H|].
  cbn [output set_output]. apply ends_once_nl. exact H.
Qed.
Lemma list_item_empty : forall task s s' kind, list_type (cx s) = Some kind ->
  list_item o B task [] s = Ok s' -> ends_once (output s').
Proof.
  intros task s s' kind L E. unfold list_item in E. apply seqa_ok in E. destruct E as (m & E1 & E). injection E1 as <-.
  unfold get in E. apply seqa_ok in E. destruct E as (m1 & E1 & E). injection E1 as <-.
  destruct (item_base_indent _ _) as [base|]; [|discriminate]. apply seqa_ok in E. destruct E as (m2 & E2 & E). injection E2 as <-.
  injection E as <-. cbn [output set_output set_cx]. apply ends_once_nl. apply ends_app. eapply head_solid. exact L.
Qed.
Lemma list_at_end : forall kind tight p pre v q kids,
  list_entry v ->
  (forall k s s' kind task, k = combine kids (with_next ser kids) -> list_type (cx s) = Some kind ->
     list_item o B task k s = Ok s' -> ends_once (output s')) ->
  at_end (Node (NList kind tight) p (pre ++ [Node v q kids])).
Proof.
  intros kind tight p pre v q kids I H next s s' _ E. cbn [serialize] in E. cbv zeta in E.
  destruct (kids_last pre (Node v q kids)) as (k & Ek & K). rewrite Ek in E. unfold list_block, get in E.
  apply seqa_ok in E. destruct E as (m & E1 & E). injection E1 as <-.
  apply seqa_ok in E. destruct E as (m1 & E1 & E). apply seqa_ok in E. destruct E as (m2 & E2 & E). injection E as <-.
  destruct (list_depth (cx m1) =? 0); [discriminate|]. injection E2 as <-. cbn [output set_cx].
  destruct (children_last _ _ _ _ K E1) as (m & L & Em). cbn in L. cbn [snd] in Em.
  destruct I as [->|(task & ->)]; cbn [serialize] in Em; cbv zeta in Em; exact (H _ _ _ _ _ eq_refl L Em).
Qed.
Lemma details_tidy : forall k c s s', keeps_type k -> tidy U o src c -> at_end c -> list_type (cx s) = None ->
  description_details U ENT o B src (k ++ [(c, ser None c)]) s = Ok s' -> ends_once (output s').
Proof.
  intros k c s s' K T A L E. unfold description_details, get in E. apply seqa_ok in E. destruct E as (m & E1 & E). injection E1 as <-.
  apply seqa_ok in E. destruct E as (m1 & E1 & E). injection E as <-. cbn [output set_cx].
  destruct (details_last _ _ _ _ _ _ K E1) as (m & first & Lm & Em). cbn in Lm. rewrite L in Lm. clear E1 L.
  assert (G : forall m0, list_type (cx m0) = None -> forall m', ser None c m0 = Ok m' -> ends_once (output m')) by (intros; eapply A; eauto).
  assert (W : forall indent m0, list_type (cx m0) = None -> forall m', with_item_indent indent (ser None c) m0 = Ok m' -> ends_once (output m')).
  { intros indent m0 L0 m' E. unfold with_item_indent, get in E. apply seqa_ok in E. destruct E as (x & E1 & E). injection E1 as <-.
    apply seqa_ok in E. destruct E as (x & E1 & E). injection E as <-. cbn [output set_cx]. eapply G; [|exact E1]. exact L0. }
  assert (Ps : forall quote marker m0 m', node_value c = NParagraph -> details_paragraph U ENT o src quote marker c m0 = Ok m' -> ends_once (output m')).
  { intros quote marker m0 m' V E. inversion T; subst; try discriminate V. unfold details_paragraph in E.
    apply seqa_ok in E. destruct E as (x & E1 & E). apply inline_ok in E. destruct E as (y & evs & z & Ew & _ & _ & E). injection E as <-.
    cbn [output set_output]. apply ends_once_app. apply once_nl. apply wrap_first_ends. apply dark_trim.
    exact (content_ends dark dark_marks U ENT o src p pre c0 H y evs Ew). }
  cbn [details_children] in Em. apply seqa_ok in Em. destruct Em as (m2 & E & Em). injection Em as <-.
  destruct first.
  - destruct (node_value c) eqn:V;
      try (apply seqa_ok in E; destruct E as (x & E1 & E); injection E1 as <-; eapply G; [|exact E]; exact Lm);
      try (apply seqa_ok in E; destruct E as (x & E1 & E); injection E1 as <-; eapply W; [|exact E]; exact Lm);
      try (eapply Ps; [reflexivity|exact E]).
    + apply seqa_ok in E; destruct E as (x & E1 & E); injection E1 as <-.
      apply seqa_ok in E; destruct E as (x & E1 & E); injection E1 as <-.
      apply seqa_ok in E; destruct E as (x & E1 & E); injection E as <-. cbn [output set_cx]. eapply G; [|exact E1]. exact Lm.
    + apply seqa_ok in E; destruct E as (x & E1 & E). apply code_ok in E. destruct E as (i & ->). apply ends_once_app, code_with_indent_once.
  - apply seqa_ok in E. destruct E as (y & E1 & E). injection E1 as <-.
    destruct (node_value c) eqn:V;
      try (apply seqa_ok in E; destruct E as (x & E1 & E); injection E1 as <-; eapply G; [|exact E]; exact Lm);
      try (eapply W; [|exact E]; exact Lm);
      try (eapply Ps; [reflexivity|exact E]);
      try (eapply G; [|exact E]; exact Lm).
    apply seqa_ok in E; destruct E as (x & E1 & E). apply code_ok in E. destruct E as (i & ->). apply ends_once_app, code_with_indent_once.
Qed.
Lemma quote_tidy : forall k c s s', keeps_type k -> at_end c -> block_quote (k ++ [(c, ser None c)]) s = Ok s' -> ends_once (output s').
Proof.
  intros k c s s' K A E. unfold block_quote, get in E. apply seqa_ok in E. destruct E as (m & E1 & E). injection E1 as <-.
  apply seqa_ok in E. destruct E as (m1 & E1 & E). injection E as <-. cbn [output set_cx].
  destruct (quote_last _ _ _ _ _ _ _ K E1) as (m & L & Em). cbn in L. eapply A; [left; exact L|exact Em].
Qed.

Theorem tidy_ends : forall n, tidy U o src n -> at_end n.
Proof.
  intros n T. induction T as [p pre c F|level p pre c Hs Hu F|level p Hs Hu|level p pre c Hs Hu V F|info l p cs|aligns p row cs
    |p cs x c Ht N|l p cs O|p pre c T IH|a p pre c T IH|a p|kind tight p pre v q I|kind tight p pre v q pre' r pre'' c I F Un
    |kind tight p pre v q pre' info l r cs I|kind tight p pre v q pre' c I C T IH|p pre q pre' r pre'' c T IH].
  - intros next s s' [L|L] E; [|discriminate L]. eapply paragraph_outside; [reflexivity|exact F|exact L|exact E].
  - intros next s s' _ E. cbn [serialize] in E. unfold heading in E. apply inline_ok in E. destruct E as (x & evs & m & Ew & _ & _ & E).
    injection E as <-. cbn [output set_output]. apply ends_once_app. unfold heading_output. rewrite Hs. cbv zeta.
    assert (X : ends solid x).
    { refine (title_ends solid _ U ENT o src level p pre c F x evs Ew). exact solid_marks. }
    unfold underlined in Hu. destruct (level =? 1) eqn:L1; [apply Nat.eqb_eq in L1; destruct (setext_h1 o); [tauto|]|];
      (destruct (level =? 2) eqn:L2; [apply Nat.eqb_eq in L2; destruct (setext_h2 o); [tauto|]|]);
      cbn [andb]; rewrite !app_assoc; apply ends_once_nl; apply ends_app; exact X.
  - intros next s s' _ E. cbn [serialize] in E. unfold heading in E. apply inline_ok in E. destruct E as (x & evs & m & Ew & _ & _ & E).
    injection E as <-. cbn [output set_output]. apply ends_once_app. unfold heading_output. rewrite Hs. cbv zeta.
    assert (X : x = []) by (cbn in Ew; injection Ew as <- _; reflexivity). subst x.
    assert (Z : ends_once (repc c_hash level ++ [c_sp] ++ [] ++ [c_nl])).
    { exists (repc c_hash level), c_sp. split; [reflexivity|discriminate]. }
    unfold underlined in Hu. destruct (level =? 1) eqn:L1; [apply Nat.eqb_eq in L1; destruct (setext_h1 o); [tauto|]|];
      (destruct (level =? 2) eqn:L2; [apply Nat.eqb_eq in L2; destruct (setext_h2 o); [tauto|]|]); exact Z.
  - intros next s s' _ E. cbn [serialize] in E. unfold heading in E. apply inline_ok in E. destruct E as (x & evs & m & Ew & _ & _ & E).
    injection E as <-. cbn [output set_output]. apply ends_once_app. unfold heading_output. rewrite Hs. cbv zeta.
    destruct (title_ends (visible U) V U ENT o src level p pre c F x evs Ew) as (y & d & -> & Vd). specialize (Vd y).
    destruct Hu as [(-> & H)|(-> & H)]; rewrite H; cbn [Nat.eqb andb].
    + rewrite !app_assoc. apply ends_once_nl. apply ends_app. apply ends_repc; [discriminate|exact Vd].
    + rewrite !app_assoc. apply ends_once_nl. apply ends_app. apply ends_repc; [discriminate|exact Vd].
  - intros next s s' _ E. cbn [serialize] in E. unfold get in E. apply code_ok in E. destruct E as (i & ->). apply ends_once_app, code_block_once.
  - intros next s s' _ E. cbn [serialize] in E. unfold table in E. cbn [is_nil] in E. apply seqa_ok in E. destruct E as (m & E1 & E).
    destruct (table_rows U ENT o src (row :: cs)) as [[cells evs]|] eqn:R; [|discriminate]. apply seqa_ok in E. destruct E as (m1 & E2 & E).
    injection E as <-. cbn [output set_output]. apply ends_once_app. apply table_once. eapply table_rows_nonempty; [|exact R]. discriminate.
  - intros next s s' _ E. cbn [serialize] in E. injection E as <-. cbn [output set_output]. apply ends_once_app. rewrite !app_assoc. apply ends_once_nl.
    apply ends_app. rewrite Ht. apply ends_one. exact N.
  - intros next s s' _ E. cbn [serialize] in E. injection E as <-. cbn [output set_output]. apply ends_once_app. exact O.
  - intros next s s' _ E. cbn [serialize] in E. cbv zeta in E. destruct (kids_last pre c) as (k & Ek & K). rewrite Ek in E.
    exact (quote_tidy _ _ _ _ K IH E).
  - intros next s s' _ E. cbn [serialize] in E. cbv zeta in E. destruct (kids_last pre c) as (k & Ek & K). rewrite Ek in E.
    unfold alert, get in E. apply seqa_ok in E. destruct E as (m & _ & E). apply seqa_ok in E. destruct E as (m1 & _ & E).
    exact (quote_tidy _ _ _ _ K IH E).
  - intros next s s' _ E. cbn [serialize combine with_next] in E. injection E as <-. cbn [output set_output set_cx]. do 3 apply ends_once_app.
    exists (lit "> [!" ++ alert_name a), 93%N. split; [reflexivity|discriminate].
  - apply list_at_end; [exact I|]. intros k s s' kd task -> L E. cbn [combine with_next] in E. eapply list_item_empty; eassumption.
  - apply list_at_end; [exact I|]. intros k s s' kd task -> L E.
    destruct (kids_last pre' (Node NParagraph r (pre'' ++ [c]))) as (k & Ek & K). rewrite Ek in E.
    eapply (list_item_last _ _ _ _ _ _ _ K L); [|exact E]. intros prev base m m' Lm Em. cbn [ends_with_newline_kind node_value].
    cbn [item_children node_value] in Em. apply seqa_ok in Em. destruct Em as (m1 & E1 & Em). injection Em as <-.
    apply seqa_ok in E1. destruct E1 as (m2 & E1 & E2). apply dark_solid. eapply paragraph_inside; [exact F|exact Un| |exact E2].
    destruct prev as [pn|]; [|injection E1 as <-; exact Lm]. apply seqa_ok in E1. destruct E1 as (m3 & E1 & E3). injection E1 as <-. injection E3 as <-. exact Lm.
  - apply list_at_end; [exact I|]. intros k s s' kd task -> L E.
    destruct (kids_last pre' (Node (NCodeBlock info l) r cs)) as (k & Ek & K). rewrite Ek in E.
    eapply (list_item_last _ _ _ _ _ _ _ K L); [|exact E]. intros prev base m m' Lm Em. cbn [ends_with_newline_kind node_value].
    cbn [item_children node_value] in Em. apply seqa_ok in Em. destruct Em as (m1 & E1 & Em). injection Em as <-.
    unfold get in E1. apply seqa_ok in E1. destruct E1 as (m2 & _ & E1). apply code_ok in E1. destruct E1 as (i & ->). apply ends_once_app, code_indented_once.
  - apply list_at_end; [exact I|]. intros k s s' kd task -> L E.
    destruct (kids_last pre' c) as (k & Ek & K). rewrite Ek in E.
    assert (Kd : ends_with_newline_kind c = true).
    { unfold ends_with_newline_kind. destruct C as [->|[(a & ->)|(k0 & t & ->)]]; reflexivity. }
    eapply (list_item_last _ _ _ _ _ _ _ K L); [|exact E]. intros prev base m m' Lm Em. rewrite Kd.
    cbn [item_children] in Em. apply seqa_ok in Em. destruct Em as (m1 & E1 & Em). injection Em as <-.
    assert (exists x, ser None c x = Ok m1) as (x & Ex).
    { destruct C as [V|[(a & V)|(k0 & t & V)]]; rewrite V in E1.
      - apply seqa_ok in E1. destruct E1 as (x & _ & E1). apply seqa_ok in E1. destruct E1 as (y & _ & E1). eauto.
      - apply seqa_ok in E1. destruct E1 as (x & _ & E1). apply seqa_ok in E1. destruct E1 as (y & _ & E1). eauto.
      - cbv zeta in E1. apply seqa_ok in E1. destruct E1 as (x & _ & E1). eauto. }
    eapply IH; [right; exact Kd|exact Ex].
  - intros next s s' [L|L] E; [|discriminate L]. cbn [serialize] in E. cbv zeta in E.
    destruct (kids_last pre (Node NDescriptionItem q (pre' ++ [Node NDescriptionDetails r (pre'' ++ [c])]))) as (k & Ek & K). rewrite Ek in E.
    destruct (description_last _ _ _ _ _ K E) as (m & Lm & Em). rewrite L in Lm. cbn [snd serialize] in Em. cbv zeta in Em.
    destruct (kids_last pre' (Node NDescriptionDetails r (pre'' ++ [c]))) as (k' & Ek' & K'). rewrite Ek' in Em.
    destruct (children_last _ _ _ _ K' Em) as (m' & Lm' & Em'). rewrite Lm in Lm'. cbn [snd serialize] in Em'. cbv zeta in Em'.
    destruct (kids_last pre'' c) as (k2 & Ek2 & K2). rewrite Ek2 in Em'. exact (details_tidy _ _ _ _ K2 T IH Lm' Em').
Qed.
End Blocks.
