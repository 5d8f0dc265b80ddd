(** C66: which warnings a run gives. *)
From Coq Require Import Bool Arith NArith Lia ZifyBool ZifyNat ZifyN String List.
From Verif Require Import Base BaseFacts OptsModel WrapModel EscapeModel CodeModel TableModel HeadingModel AstModel StateModel
  InlineModel WarnModel SerModel SpecState SpecContext SpecDoc StateProof PropsState SerFacts PropsOrder SerBuilt OutputProof DocProof
  PropsDoc DocRun SpecWarn PropsWarn SpecInline PropsTable SpecWidth SpecWarned WarnedProof.
From Verif Require ShiftProof.
Import ListNotations.

(** ** The warnings of a table *)
Lemma count_pipes_eq : forall line, count_unescaped_pipes line = pipes_prev false line.
Proof.
  intro line. unfold count_unescaped_pipes.
  assert (G : forall l p, count_unescaped_pipes_from p l = pipes_prev (match p with Some x => ceq x c_bs | None => false end) l).
  { induction l as [|c l IH]; intros p; auto. cbn. rewrite IH. reflexivity. }
  apply G.
Qed.
Lemma line_warning : forall cols tl k line,
  (uneven cols line /\ exists w, table_line_warning cols tl k line = [w] /\ warn_line w = k)
  \/ (~ uneven cols line /\ table_line_warning cols tl k line = []).
Proof.
  intros cols tl k line. unfold table_line_warning, uneven.
  assert (F : forallb (fun c => ceq c c_pipe || ceq c c_dash || ceq c c_colon || ceq c c_sp) line = false <->
    exists c, In c line /\ c <> c_pipe /\ c <> c_dash /\ c <> c_colon /\ c <> c_sp).
  { split.
    - intro E. induction line as [|c line IH]; [discriminate|]. cbn [forallb] in E. apply andb_false_iff in E.
      destruct E as [E|E]; [|destruct (IH E) as (d & I & D); exists d; split; [right; exact I|exact D]].
      exists c. split; [left; reflexivity|]. apply orb_false_iff in E. destruct E as [E E4]. apply orb_false_iff in E. destruct E as [E E3].
      apply orb_false_iff in E. destruct E as [E1 E2].
      repeat split; intro Q; subst c; vm_compute in E1, E2, E3, E4; discriminate.
    - intros (c & I & N1 & N2 & N3 & N4). destruct (forallb _ line) eqn:E; [|reflexivity]. rewrite forallb_forall in E. specialize (E c I). cbv beta in E.
      destruct (ceq_spec c c_pipe), (ceq_spec c c_dash), (ceq_spec c c_colon), (ceq_spec c c_sp); try contradiction; discriminate. }
  destruct (forallb _ line) eqn:E; [right; split; [|reflexivity]; intros [_ X]; apply F in X; discriminate|].
  assert (X := proj1 F eq_refl). cbv zeta. rewrite count_pipes_eq.
  destruct (cols + 1 <? pipes_prev false line) eqn:A; [left; split; [split; [right; apply Nat.ltb_lt; exact A|exact X]|eexists; split; reflexivity]|].
  destruct (pipes_prev false line <? cols) eqn:C; [left; split; [split; [left; apply Nat.ltb_lt; exact C|exact X]|eexists; split; reflexivity]|].
  right. split; [|reflexivity]. intros [[Q|Q] _]; apply Nat.ltb_ge in A, C; lia.
Qed.
Lemma rows_listed : forall src t aligns, node_value t = NTable aligns -> row_warnings src t (rows src t).
Proof.
  intros src t aligns V. exists aligns. split; [exact V|]. unfold rows. rewrite V. unfold check_table_source_columns.
  set (a := start_line (node_pos t)). set (b := end_line (node_pos t)). set (cols := List.length aligns).
  destruct ((a =? 0) || (b =? 0)) eqn:Z.
  { split; [intros x w y w' z E; destruct x; discriminate|]. intro l. split; [intros []|]. intros (P & Q & _). exfalso.
    apply orb_true_iff in Z. destruct Z as [Z|Z]; apply Nat.eqb_eq in Z; lia. }
  apply orb_false_iff in Z. destruct Z as [Z _]. apply Nat.eqb_neq in Z.
  set (f := fun line_num => match nth_error src (line_num - 1) with Some line => table_line_warning cols a line_num line | None => [] end).
  assert (Fk : forall k, (f k = [] /\ ~ exists line, nth_error src (k - 1) = Some line /\ uneven cols line)
     \/ (exists w, f k = [w] /\ warn_line w = k /\ exists line, nth_error src (k - 1) = Some line /\ uneven cols line)).
  { intro k. unfold f. destruct (nth_error src (k - 1)) as [line|] eqn:N.
    - destruct (line_warning cols a k line) as [(Un & w & E & L)|(Un & E)]; [right; exists w; eauto 6|left; split; [exact E|]].
      intros (line' & Q & Un'). injection Q as <-. contradiction.
    - left. split; [reflexivity|]. intros (line & Q & _). discriminate. }
  assert (Lo : forall n s w, In w (flat_map f (seq s n)) -> s <= warn_line w).
  { intros n s w I. apply in_flat_map in I. destruct I as (k & K & I). apply in_seq in K.
    destruct (Fk k) as [[E _]|(w' & E & L & _)]; rewrite E in I; [destruct I|]. destruct I as [<-|[]]. lia. }
  split.
  - generalize (S b - a). clear Z. generalize a at 1. intros s n. revert s. induction n as [|n IH]; intros s x w y w' z E; [destruct x; discriminate|].
    cbn [seq flat_map] in E. destruct (Fk s) as [[E0 _]|(w0 & E0 & L & _)]; rewrite E0 in E; cbn [app] in E; [eapply IH; exact E|].
    destruct x as [|x0 x]; cbn [app] in E; injection E as E1 E2; [|eapply IH; exact E2].
    subst w0. assert (I : In w' (flat_map f (seq (S s) n))) by (rewrite E2; apply in_or_app; right; left; reflexivity). apply Lo in I. lia.
  - intro l. rewrite in_map_iff. split.
    + intros (w & <- & I). apply in_flat_map in I. destruct I as (k & K & I). apply in_seq in K.
      destruct (Fk k) as [[E _]|(w' & E & L & X)]; rewrite E in I; [destruct I|]. destruct I as [<-|[]]. rewrite L. split; [lia|]. split; [lia|exact X].
    + intros (P & Q & X). destruct (Fk l) as [[_ N]|(w & E & L & _)]; [contradiction|]. exists w. split; [exact L|].
      apply in_flat_map. exists l. split; [apply in_seq; lia|rewrite E; left; reflexivity].
Qed.
Lemma tables_are : forall n t, In t (tables n) -> exists aligns, node_value t = NTable aligns.
Proof.
  induction n as [v p cs IH] using node_ind'. intros t I.
  assert (K : In t (flat_map tables cs) -> exists aligns, node_value t = NTable aligns).
  { intro J. apply in_flat_map in J. destruct J as (c & C & J). rewrite Forall_forall in IH. exact (IH c C t J). }
  destruct v; cbn [tables] in I; try (destruct I; fail); try (exact (K I)).
  - destruct (reads_blocks cs); [exact (K I)|destruct I].
  - destruct cs; [destruct I|]. destruct I as [<-|[]]. eexists. reflexivity.
  - destruct (existsb _ cs); [exact (K I)|destruct I].
Qed.
Lemma formatted_are : forall there m cs ts, formatted_tables there m cs ts -> forall t, In t ts -> exists aligns, node_value t = NTable aligns.
Proof.
  intros there m cs ts H. induction H; intros t I; try (apply IHformatted_tables; exact I); try (destruct I; fail).
  apply in_app_or in I. destruct I as [I|I]; [eapply tables_are; exact I|auto].
Qed.
Lemma formatted_all : forall (T T' : node -> Prop) m cs ts, (forall n, In n cs -> T n -> T' n) -> (forall n, In n cs -> T' n -> T n) ->
  formatted_tables T m cs ts -> formatted_tables T' m cs ts.
Proof.
  intros T T' m cs ts A C H.
  induction H; try (assert (H' : formatted_tables T' _ cs ts) by (apply IHformatted_tables; intros q I; [apply A|apply C]; right; exact I)).
  - constructor.
  - apply ft_note; assumption.
  - apply ft_trailing; assumption.
  - apply ft_file; assumption.
  - eapply ft_directive; eassumption.
  - apply ft_kept; try assumption. apply A; [left; reflexivity|assumption].
  - apply ft_here; try assumption. destruct H0 as [Q|Q]; [left; exact Q|right]. intro X. apply Q. apply C; [left; reflexivity|exact X].
Qed.

(** Warnings of formatters are about no line. *)
Lemma dropped : forall o B n info literal,
  filter (fun w => negb (warn_line w =? 0)) (eff_warnings (snd (code_parts o B n info literal))) = [].
Proof.
  intros o B n info literal. pose proof (ShiftProof.parts_lineless o B n info literal) as H.
  induction H as [|w ws E H IH]; [reflexivity|]. cbn [filter]. rewrite E. exact IH.
Qed.
Lemma unformatted : forall o B n info literal, code_formatters o = [] ->
  filter (fun _ => true) (eff_warnings (snd (code_parts o B n info literal))) = [].
Proof.
  intros o B n info literal F. unfold code_parts. destruct (parse_code_info info) as [[a b] c]. cbv zeta. destruct (_ && _); [|reflexivity].
  unfold try_format_code. rewrite F. destruct B as [run|[cb|]]; reflexivity.
Qed.
Lemma filter_same : forall {A} f (l : list A), (forall x, In x l -> f x = true) -> filter f l = l.
Proof. intros A f l H. induction l as [|x l IH]; [reflexivity|]. cbn [filter]. rewrite (H x (or_introl eq_refl)), IH; [reflexivity|]. intros y I. apply H. right. exact I. Qed.
Lemma filter_all : forall {A} (l : list A), filter (fun _ => true) l = l.
Proof. intros A l. induction l as [|x l IH]; [reflexivity|]. cbn [filter]. rewrite IH. reflexivity. Qed.

(** ** C66: the warnings of a document that are about a line are those about
    undefined references, then one for each uneven line of a table in a
    footnote, then one for each uneven line of a table in a block that is
    formatted, in order, and nothing else. *)
Theorem C66_exact : forall U PN ENT o B src ends_nl checks p cs s',
  src <> [] -> Forall (fun l => ~ In c_nl l) src -> forallb no_document cs = true ->
  Forall (fun n => exists x, spans (join [c_nl] src) (node_pos n) x) cs ->
  serialize_root U PN ENT o B src ends_nl checks (Node NDocument p cs) = Ok s' ->
  exists us ts wss, check_undefined checks src (Node NDocument p cs) = Ok us
    /\ formatted_tables (fun _ => True) Format cs ts
    /\ Forall2 (row_warnings src) (note_tables cs ++ ts) wss
    /\ located (warnings s') = located us ++ List.concat wss.
Proof.
  intros U PN ENT o B src ends_nl checks p cs s' S1 S2 D Sp E.
  destruct (document_gives U PN ENT o B src ends_nl checks _ (dropped o B) (conj S1 S2) p cs s' D E) as (us & ts & C & F & Q).
  assert (T : forall t, In t (note_tables cs ++ ts) -> exists aligns, node_value t = NTable aligns).
  { intros t I. apply in_app_or in I. destruct I as [I|I]; [|eapply formatted_are; eassumption].
    unfold note_tables in I. apply in_flat_map in I. destruct I as (c & _ & I). destruct (node_value c); try destruct I. eapply tables_are; exact I. }
  exists us, ts, (map (rows src) (note_tables cs ++ ts)). split; [exact C|]. split; [|split].
  - revert F. apply formatted_all; [auto|]. intros n I _. rewrite Forall_forall in Sp. destruct (Sp n I) as [x X].
    exists x. apply C32_exact; assumption.
  - clear - T. induction (note_tables cs ++ ts) as [|t l IH]; [constructor|]. cbn [map]. constructor.
    + destruct (T t (or_introl eq_refl)) as [aligns V]. eapply rows_listed. exact V.
    + apply IH. intros q I. apply T. right. exact I.
  - unfold located in *. rewrite Q, filter_app. f_equal. rewrite <- flat_map_concat_map. apply filter_same.
    intros w I. apply in_flat_map in I. destruct I as (t & I & J).
    destruct (T t I) as [aligns V]. destruct (rows_listed src t aligns V) as (al & _ & _ & L).
    apply (in_map warn_line) in J. apply L in J. destruct (Nat.eqb_spec (warn_line w) 0); [lia|reflexivity].
Qed.
Print Assumptions C66_exact.

(** C66: so nothing but the document decides about them: no option, formatter,
    table of words or entities, nor the way the source ends. *)
Theorem C66_options : forall src checks p cs U PN ENT o B e s U' PN' ENT' o' B' e' s',
  src <> [] -> Forall (fun l => ~ In c_nl l) src -> forallb no_document cs = true ->
  serialize_root U PN ENT o B src e checks (Node NDocument p cs) = Ok s ->
  serialize_root U' PN' ENT' o' B' src e' checks (Node NDocument p cs) = Ok s' ->
  located (warnings s) = located (warnings s')
  /\ (code_formatters o = [] -> code_formatters o' = [] -> warnings s = warnings s').
Proof.
  intros src checks p cs U PN ENT o B e s U' PN' ENT' o' B' e' s' S1 S2 D E E'. split.
  - destruct (document_gives U PN ENT o B src e checks _ (dropped o B) (conj S1 S2) p cs s D E) as (us & ts & C & F & Q).
    destruct (document_gives U' PN' ENT' o' B' src e' checks _ (dropped o' B') (conj S1 S2) p cs s' D E') as (us' & ts' & C' & F' & Q').
    rewrite C in C'. injection C' as <-. rewrite (formatted_unique _ _ _ _ F _ F') in Q'. unfold located. congruence.
  - intros N N'.
    destruct (document_gives U PN ENT o B src e checks _ (fun n i l => unformatted o B n i l N) (conj S1 S2) p cs s D E) as (us & ts & C & F & Q).
    destruct (document_gives U' PN' ENT' o' B' src e' checks _ (fun n i l => unformatted o' B' n i l N') (conj S1 S2) p cs s' D E') as (us' & ts' & C' & F' & Q').
    rewrite C in C'. injection C' as <-. rewrite (formatted_unique _ _ _ _ F _ F') in Q'. rewrite !filter_all in Q, Q'. congruence.
Qed.
Print Assumptions C66_options.
Theorem C66_format : forall parse checks input p cs U PN ENT o B out ws U' PN' ENT' o' B' out' ws',
  parse input = Node NDocument p cs -> forallb no_document cs = true ->
  format_with_warnings U PN ENT parse o B checks input = Ok (out, ws) ->
  format_with_warnings U' PN' ENT' parse o' B' checks input = Ok (out', ws') ->
  located ws = located ws' /\ (code_formatters o = [] -> code_formatters o' = [] -> ws = ws').
Proof.
  intros parse checks input p cs U PN ENT o B out ws U' PN' ENT' o' B' out' ws' P D E E'. unfold format_with_warnings in E, E'.
  destruct (is_nil input) eqn:Z; [injection E as <- <-; injection E' as <- <-; auto|]. rewrite P in E, E'.
  destruct (serialize_root U PN _ _ _ _ _ _ _) as [s|] eqn:R; [|discriminate]. injection E as <- <-.
  destruct (serialize_root U' PN' _ _ _ _ _ _ _) as [s'|] eqn:R'; [|discriminate]. injection E' as <- <-.
  eapply C66_options; [| |exact D|exact R|exact R'].
  - intro L. assert (G : forall t cur, lines_aux cur t = [] -> t = []).
    { induction t as [|x t IH]; intros cur E; [reflexivity|]. cbn [lines_aux] in E.
      destruct (ceq x c_nl); [discriminate|]. destruct t; [cbn in E; destruct (rev cur); discriminate|]. apply IH in E. discriminate. }
    unfold lines in L. apply G in L. subst input. discriminate Z.
  - eapply Forall_impl; [|apply lines_forall]. intros l H J. cbn beta in H. rewrite Forall_forall in H. exact (H _ J eq_refl).
Qed.
Print Assumptions C66_format.

(** ** Example *)
Definition src66 : list str :=
  [lit "See [that][gone]."; []; lit "| a | b |"; lit "|---|---|"; lit "| `x|y` | z |"; [];
   lit "<!-- hongdown-disable-next-line -->"; []; lit "| a |"; lit "|---|"; lit "| b | c |"; [];
   lit "[^1]:"; lit "    | a |"; lit "    |---|"; lit "    | b | c |"].
Definition cell66 (k : nat) (t : string) : node := Node NTableCell (mkPos k 3 k 4) [Node (NText (lit t)) (mkPos k 3 k 4) []].
Definition two66 : node := Node (NTable [ANone; ANone]) (mkPos 3 1 5 13)
  [Node NTableRow (mkPos 3 1 3 9) [cell66 3 "a"; cell66 3 "b"]; Node NTableRow (mkPos 5 1 5 13) [cell66 5 "`x"; cell66 5 "y`"]].
Definition one66 (k c : nat) : node := Node (NTable [ANone]) (mkPos k c (k + 2) (c + 8))
  [Node NTableRow (mkPos k c k (c + 4)) [cell66 k "a"]; Node NTableRow (mkPos (k + 2) c (k + 2) (c + 8)) [cell66 (k + 2) "b"]].
Definition doc66 : list node :=
  [Node NParagraph (mkPos 1 1 1 17) [Node (NText (lit "See [that][gone].")) (mkPos 1 1 1 17) []]; two66;
   Node (NHtmlBlock (lit "<!-- hongdown-disable-next-line -->" ++ [c_nl])) (mkPos 7 1 7 35) []; one66 9 1;
   Node (NFootnoteDefinition (lit "1")) (mkPos 13 1 16 13) [one66 14 5]].
Definition run66 (o : Options) : res (list nat) :=
  rbind (serialize_root uni_ascii [] (fun _ => None) o (Wasm None) src66 true true (Node NDocument (mkPos 1 1 16 13) doc66))
    (fun s => Ok (map warn_line (warnings s))).
(** The reference is undefined, the table in the footnote and the first one have
    an uneven line, and so has the second one, which is kept. *)
Example C66_witness :
  (src66 <> [] /\ Forall (fun l => ~ In c_nl l) src66) /\ forallb no_document doc66 = true
  /\ Forall (fun n => exists x, spans (join [c_nl] src66) (node_pos n) x) doc66
  /\ formatted_tables (fun _ => True) Format doc66 [two66] /\ note_tables doc66 = [one66 14 5]
  /\ run66 default_options = Ok [1; 16; 5] /\ run66 (with_width default_options 12) = Ok [1; 16; 5].
Proof.
  assert (D : forall n d, directive_of n = Some d -> directs n d) by (intros n d; apply directs_iff).
  assert (O : forall n rest, directive_of n = None -> match node_value n with NFootnoteDefinition _ | NHtmlBlock _ => False | _ => True end -> ordinary n rest).
  { intros n rest E V. split; [intros [x Q]; rewrite Q in V; destruct V|]. split; [intros [[x Q] _]; unfold html_literal in Q; rewrite Q in V; destruct V|].
    intros d C. apply directs_iff in C. congruence. }
  split; [|split; [|split; [|split; [|split; [|split]]]]].
  - split; [discriminate|]. repeat (constructor; [vm_compute; intuition discriminate|]). constructor.
  - reflexivity.
  - assert (Q : forall (n : node) k, let t := join [c_nl] src66 in forall l,
        1 <= start_col (node_pos n) -> cursor (firstn k t) = (start_line (node_pos n), start_col (node_pos n) - 1) ->
        cursor (firstn (k + l) t) = (end_line (node_pos n), end_col (node_pos n)) -> exists x, spans t (node_pos n) x).
    { intros n k t l A C E. exists (firstn l (skipn k t)), (firstn k t), (skipn l (skipn k t)). split; [rewrite firstn_skipn, firstn_skipn; reflexivity|].
      split; [exact A|]. split; [exact C|]. rewrite <- E. f_equal. symmetry. rewrite <- (firstn_skipn k t) at 1.
      destruct (Nat.le_gt_cases k (List.length t)) as [G|G].
      - rewrite firstn_app, firstn_length, Nat.min_l by exact G. rewrite firstn_firstn, Nat.min_r by lia. f_equal. f_equal. lia.
      - rewrite (skipn_all2 t) by lia. rewrite !firstn_nil, !app_nil_r, firstn_firstn, Nat.min_r by lia. reflexivity. }
    repeat apply Forall_cons; try apply Forall_nil.
    + apply (Q _ 0 17); vm_compute; [lia|reflexivity|reflexivity].
    + apply (Q _ 19 33); vm_compute; [lia|reflexivity|reflexivity].
    + apply (Q _ 54 35); vm_compute; [lia|reflexivity|reflexivity].
    + apply (Q _ 91 21); vm_compute; [lia|reflexivity|reflexivity].
    + apply (Q _ 114 39); vm_compute; [lia|reflexivity|reflexivity].
  - unfold doc66. match goal with |- formatted_tables _ _ (?n :: _) _ => apply (ft_here _ _ n _ [two66]) end; [apply O; [vm_compute; reflexivity|exact Logic.I]|left; reflexivity|].
    apply (ft_here _ _ two66 _ []); [apply O; [vm_compute; reflexivity|exact Logic.I]|left; reflexivity|].
    eapply ft_directive; [apply D; vm_compute; reflexivity|discriminate|].
    apply ft_kept; [apply O; [vm_compute; reflexivity|exact Logic.I]|reflexivity|exact Logic.I|].
    apply ft_note; [eexists; reflexivity|apply ft_end].
  - reflexivity.
  - vm_compute. reflexivity.
  - vm_compute. reflexivity.
Qed.
