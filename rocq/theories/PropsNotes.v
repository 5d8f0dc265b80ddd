(** C26: every footnote definition is written once. *)
From Coq Require Import Bool Arith NArith ZArith Lia ZifyBool ZifyNat ZifyN String List Permutation.
From Verif Require Import Base BaseFacts OptsModel WrapModel CodeModel TableModel HeadingModel AstModel StateModel
  InlineModel WarnModel SerModel SpecState SpecWrap SpecContext SpecDoc SpecRefs SpecNotes StateProof PropsState SerFacts PropsOrder SerBuilt
  OutputProof DocProof PropsDoc DocRun RefProof NoteProof.
Import ListNotations.

(** Without disable-file: the definitions of the document are written, each
    once, at the beginning of a line; the groups stand before the headings of
    level 2 and 3 and the directives, and at the end; each definition is in the
    first group after the line of its first reference; its content is what is
    written for its blocks, or the text of its paragraph.  Missing: documents with
    disable-file (refuted below). *)
Theorem C26_once_partial : forall U PN ENT o B src ends_nl checks p cs s',
  serialize_root U PN ENT o B src ends_nl checks (Node NDocument p cs) = Ok s' ->
  forallb no_document cs = true ->
  (forall n, In n cs -> Forall no_notes (node_children n)) ->
  (forall n, In n cs -> ~ directs n DisableFile) ->
  NoDup (note_names cs) ->
  exists gs, flow [] None cs gs (output s')
    /\ notes (trace s') = List.concat (map snd gs)
    /\ Permutation (map fn_name (List.concat (map snd gs))) (note_names cs)
    /\ placed gs
    /\ forall f, In f (List.concat (map snd gs)) ->
         first_line (fn_name f) (references (Node NDocument p cs)) (fn_reference_line f)
         /\ defined_by (serialize U PN ENT o B src ends_nl checks) (fun ns => wcat (with_next (collect_inline U ENT o src) ns)) cs f.
Proof.
  intros U PN ENT o B src ends_nl checks p cs s' E D NN NF ND.
  apply root_steps in E. destruct E as (ws & m1 & m2 & _ & E1 & E2 & E3).
  apply collect_lines_set in E1. cbn [footnotes set_warnings init_st init_footnotes f_reference_lines] in E1.
  set (names := fold_left record_in (references (Node NDocument p cs)) []) in *.
  assert (L1 := lines_set_lines _ _ _ E1).
  assert (Q : forall k, assoc_str k names = assoc_str k (references (Node NDocument p cs))) by (intro k; unfold names; apply record_lookups).
  assert (Kn : Forall (knows names) cs).
  { apply Forall_forall. intros c I m name W V. unfold known. rewrite Q. apply (known_references m (Node NDocument p cs)); [|exact V].
    eapply within_below; eassumption. }
  assert (Z : f_pending (footnotes m1) = [] /\ f_emitted (footnotes m1) = [] /\ notes (trace m1) = [] /\ output m1 = []) by (rewrite E1; repeat split).
  destruct Z as (Z1 & Z2 & Z3 & Z4).
  destruct (notes_run_adds _ _ _ _ _ _ _ _ _ _ _ E2 D) as (l & P & M & En & Df & Em & Li & No & Ou).
  { apply Forall_forall. exact NN. } { rewrite L1. exact Kn. } { rewrite Z1. exact ND. }
  rewrite Z1 in P. cbn [app] in P. rewrite L1 in En, Li.
  assert (NNn : forall n, In n cs -> note_definition n \/ no_notes n).
  { intros n I. destruct (is_footnote_def n) eqn:F; [left; apply note_iff; exact F|right].
    intros m W. pose proof (NN n I) as H. inversion W; subst.
    - intro C. apply note_iff in C. congruence.
    - cbn [node_children] in H. rewrite Forall_forall in H. exact (H c H0 m H1). }
  destruct (doc_run_flow U PN ENT o B src ends_nl checks names _ _ _ _ _ E3 D NNn NF Kn) as (gs & text & A & F & T & Pm & Pl).
  { split; rewrite ?P; [exact En|rewrite M; exact ND|intros k _; rewrite Em, Z2; intros []|exact Li]. }
  rewrite Ou, Z4 in A, F. cbn [app] in A. subst text. rewrite No, Z3 in T. cbn [app] in T.
  exists gs. split; [exact F|]. split; [exact T|]. split; [|split; [exact Pl|]].
  - eapply Permutation_trans; [apply Permutation_map; apply Permutation_sym; exact Pm|]. unfold pend. rewrite P, map_map, <- M.
    rewrite (map_ext_in _ fst); [apply Permutation_refl|]. intros kv I. unfold entries in En. rewrite Forall_forall in En. symmetry. apply (En kv I).
  - intros f I. apply (Permutation_in f (Permutation_sym Pm)) in I. unfold pend in I. rewrite P in I. apply in_map_iff in I.
    destruct I as (kv & <- & I). unfold entries in En. rewrite Forall_forall in En. destruct (En kv I) as [A B0]. rewrite <- A, B0.
    split; [unfold line_of; rewrite Q; apply first_line_of|]. rewrite Forall_forall in Df. exact (Df kv I).
Qed.
Print Assumptions C26_once_partial.

(** ** Refutations *)
Definition fref26 (l c : nat) (name : str) : node := Node (NFootnoteReference name) (mkPos l c l (c + 3)) [].
Definition text26 (l c : nat) (t : str) : node := Node (NText t) (mkPos l c l (c + byte_len t - 1)) [].
Definition note26 (l : nat) (name : str) (cs : list node) : node :=
  Node (NFootnoteDefinition name) (mkPos l 1 l 20) cs.
Definition marker26 (name : str) : str := lit "[^" ++ name ++ lit "]: ".

(** With disable-file, a definition after the directive is written twice. *)
Theorem C26_twice_refuted : exists src cs s name a b c,
  run23 src cs = Ok s /\ note_names cs = [name] /\ List.length (filter (starts_with (marker26 name)) src) = 1
  /\ output s = a ++ [c_nl] ++ marker26 name ++ b ++ [c_nl] ++ marker26 name ++ c.
Proof.
  exists [lit "a[^1]"; []; file23; []; lit "[^1]: b"],
    [Node NParagraph (mkPos 1 1 1 5) [text26 1 1 (lit "a"); fref26 1 2 (lit "1")]; html23 3 file23;
     note26 5 (lit "1") [Node NParagraph (mkPos 5 7 5 7) [text26 5 7 (lit "b")]]].
  eexists. exists (lit "1"), (lit "a[^1]" ++ [c_nl]), (lit "b" ++ [c_nl] ++ file23 ++ [c_nl]), (lit "b" ++ [c_nl]).
  split; [vm_compute; reflexivity|]. split; [reflexivity|]. split; vm_compute; reflexivity.
Qed.
(** With disable-file, a definition before the directive that is referenced
    after it is not written. *)
Theorem C26_lost_refuted : exists src cs s name,
  run23 src cs = Ok s /\ note_names cs = [name]
  /\ contains_sub (lit "[^" ++ name ++ lit "]") (output s) = true /\ contains_sub (marker26 name) (output s) = false.
Proof.
  exists [lit "[^1]: b"; []; file23; []; lit "a[^1]"],
    [html23 3 file23; Node NParagraph (mkPos 5 1 5 5) [text26 5 1 (lit "a"); fref26 5 2 (lit "1")];
     note26 1 (lit "1") [Node NParagraph (mkPos 1 7 1 7) [text26 1 7 (lit "b")]]].
  eexists. exists (lit "1"). split; [vm_compute; reflexivity|]. split; [reflexivity|]. split; vm_compute; reflexivity.
Qed.
(** A footnote with an empty block quote is not written at all. *)
Theorem C26_empty_refuted : exists src cs s name,
  run23 src cs = Ok s /\ note_names cs = [name] /\ (forall n, In n cs -> forall d, ~ directs n d)
  /\ contains_sub (lit "[^" ++ name ++ lit "]") (output s) = true /\ contains_sub (marker26 name) (output s) = false.
Proof.
  exists [lit "a[^1]"; []; lit "[^1]: >"],
    [Node NParagraph (mkPos 1 1 1 5) [text26 1 1 (lit "a"); fref26 1 2 (lit "1")];
     note26 3 (lit "1") [Node NBlockQuote (mkPos 3 7 3 7) []]].
  eexists. exists (lit "1"). split; [vm_compute; reflexivity|]. split; [reflexivity|]. split.
  - intros n [<-|[<-|[]]] d C; apply directs_iff in C; discriminate C.
  - split; vm_compute; reflexivity.
Qed.
(** The content of a footnote that is neither text nor one of the blocks the
    serializer looks for is lost. *)
Theorem C26_content_refuted : exists src cs s name l p q,
  run23 src cs = Ok s
  /\ In (Node (NFootnoteDefinition name) p [Node (NHtmlBlock l) q []]) cs
  /\ l = lit "<p>b</p>" ++ [c_nl]
  /\ contains_sub (marker26 name ++ [c_nl]) (output s) = true /\ contains_sub (lit "b") (output s) = false.
Proof.
  exists [lit "a[^1]"; []; lit "[^1]: <p>b</p>"],
    [Node NParagraph (mkPos 1 1 1 5) [text26 1 1 (lit "a"); fref26 1 2 (lit "1")];
     note26 3 (lit "1") [Node (NHtmlBlock (lit "<p>b</p>" ++ [c_nl])) (mkPos 3 7 3 14) []]].
  eexists. exists (lit "1"). eexists. eexists. eexists. split; [vm_compute; reflexivity|]. split; [right; left; reflexivity|].
  split; [reflexivity|]. split; vm_compute; reflexivity.
Qed.
(** A footnote referenced only in another footnote may be written before it,
    in a section in which nothing refers to it. *)
Theorem C26_early_refuted : exists src cs s name a b,
  run23 src cs = Ok s /\ (forall n, In n cs -> forall d, ~ directs n d)
  /\ output s = a ++ [c_nl] ++ marker26 name ++ b
  /\ contains_sub (lit "[^" ++ name ++ lit "]") a = false
  /\ contains_sub (lit "[^" ++ name ++ lit "]") b = true
  /\ contains_sub (lit "S") a = false /\ contains_sub (lit "S" ++ [c_nl] ++ lit "-") b = true.
Proof.
  exists [lit "[^1]: see[^2]"; []; lit "a"; []; lit "## S"; []; lit "b[^1]"; []; lit "[^2]: c"],
    [Node NParagraph (mkPos 3 1 3 1) [text26 3 1 (lit "a")];
     Node (NHeading 2) (mkPos 5 1 5 4) [text26 5 4 (lit "S")];
     Node NParagraph (mkPos 7 1 7 5) [text26 7 1 (lit "b"); fref26 7 2 (lit "1")];
     note26 1 (lit "1") [Node NParagraph (mkPos 1 7 1 13) [text26 1 7 (lit "see"); fref26 1 10 (lit "2")]];
     note26 9 (lit "2") [Node NParagraph (mkPos 9 7 9 7) [text26 9 7 (lit "c")]]].
  eexists. exists (lit "2"), (lit "a" ++ [c_nl]). eexists. split; [vm_compute; reflexivity|]. split.
  - intros n I d C. apply directs_iff in C. cbn in I. decompose [or] I; subst n || contradiction; discriminate C.
  - split; [vm_compute; reflexivity|]. repeat split; vm_compute; reflexivity.
Qed.
Print Assumptions C26_twice_refuted.
Print Assumptions C26_lost_refuted.
Print Assumptions C26_empty_refuted.
Print Assumptions C26_content_refuted.
Print Assumptions C26_early_refuted.

(** ** Example: two sections, footnotes in both, one without reference. *)
Definition src26 : list str :=
  [lit "a[^2] b[^1]"; []; lit "## S"; []; lit "c[^3] d[^1]"; []; lit "[^3]: z"; lit "[^1]: x"; lit "[^2]: y"].
Definition cs26 : list node :=
  [Node NParagraph (mkPos 1 1 1 11) [text26 1 1 (lit "a"); fref26 1 2 (lit "2"); text26 1 6 (lit " b"); fref26 1 8 (lit "1")];
   Node (NHeading 2) (mkPos 3 1 3 4) [text26 3 4 (lit "S")];
   Node NParagraph (mkPos 5 1 5 11) [text26 5 1 (lit "c"); fref26 5 2 (lit "3"); text26 5 6 (lit " d"); fref26 5 8 (lit "1")];
   note26 9 (lit "2") [Node NParagraph (mkPos 9 7 9 7) [text26 9 7 (lit "y")]];
   note26 8 (lit "1") [Node NParagraph (mkPos 8 7 8 7) [text26 8 7 (lit "x")]];
   note26 7 (lit "3") [Node NParagraph (mkPos 7 7 7 7) [text26 7 7 (lit "z")]]].
Example C26_witness :
  match run23 src26 cs26 with
  | Ok s => output s = join [c_nl] [lit "a[^2] b[^1]"; []; lit "[^1]: x"; lit "[^2]: y"; []; []; lit "S"; lit "-"; []; lit "c[^3] d[^1]"; []; lit "[^3]: z"; []]
     /\ map (fun f => (fn_name f, fn_reference_line f)) (notes (trace s)) = [(lit "1", 1); (lit "2", 1); (lit "3", 5)]
     /\ references (Node NDocument (mkPos 1 1 9 1) cs26) = [(lit "2", 1); (lit "1", 1); (lit "3", 5); (lit "1", 5)]
  | Panic => False
  end.
Proof. vm_compute. repeat split. Qed.
Lemma C26_run23 : forall src cs s, run23 src cs = Ok s -> forallb no_document cs = true ->
  (forall n, In n cs -> Forall no_notes (node_children n)) -> (forall n, In n cs -> ~ directs n DisableFile) -> NoDup (note_names cs) ->
  exists gs, flow [] None cs gs (output s) /\ placed gs /\ Permutation (map fn_name (List.concat (map snd gs))) (note_names cs).
Proof.
  intros src cs s E D NN NF ND. destruct (C26_once_partial _ _ _ _ _ _ _ _ _ _ _ E D NN NF ND) as (gs & F & _ & P & Pl & _).
  exists gs. auto.
Qed.
Example C26_applies : forall s, run23 src26 cs26 = Ok s ->
  exists gs, flow [] None cs26 gs (output s) /\ placed gs
  /\ Permutation (map fn_name (List.concat (map snd gs))) [lit "2"; lit "1"; lit "3"].
Proof.
  intros s E. apply (C26_run23 _ _ _ E); clear E s.
  - reflexivity.
  - intros n I. assert (N : forall m v p t, (match v with NFootnoteDefinition _ => False | _ => True end) -> t = @nil node -> m = Node v p t -> no_notes m).
    { intros m v p t V -> -> x W [name Q]. inversion W; subst; [cbn [node_value] in Q; subst v; exact V|contradiction]. }
    assert (N1 : forall v p t, no_notes t -> (match v with NFootnoteDefinition _ => False | _ => True end) -> no_notes (Node v p [t])).
    { intros v p t H V x W [name Q]. inversion W; subst; [cbn [node_value] in Q; subst v; exact V|]. match goal with J : In _ [_] |- _ => destruct J as [<-|[]] end.
      eapply H; [eassumption|exists name; exact Q]. }
    cbn in I. decompose [or] I; try contradiction; subst n; cbn [node_children];
      repeat constructor; try (eapply N; [|reflexivity|reflexivity]; exact Logic.I); apply N1; try exact Logic.I; eapply N; try reflexivity; exact Logic.I.
  - intros n I C. apply directs_iff in C. cbn in I. decompose [or] I; try contradiction; subst n; discriminate C.
  - cbn. repeat constructor; cbn; intuition discriminate.
Qed.
