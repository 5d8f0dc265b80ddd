(** C60: a text is formatted the same wherever it stands. *)
From Coq Require Import Bool Arith NArith Lia ZifyBool ZifyNat ZifyN String List.
From Verif Require Import Base BaseFacts OptsModel WrapModel CodeModel TableModel AstModel StateModel
  InlineModel WarnModel SerModel SpecContext SpecDoc SpecRefs SpecParts SpecShift ShiftProof.
From Verif Require DocProof PropsParts.
Import ListNotations.

Section Whole.
Variable U : Uni.
Variable PN : list (str * str).
Variable ENT : str -> option str.
Variable o : Options.
Variable B : backend.
Variable checks : bool.

(** Two outcomes: the same text, and the same warnings [k] lines further down. *)
Definition same_below (k : nat) (names : Prop) (x y : res (str * list warning)) : Prop :=
  match x, y with
  | Ok (out, ws), Ok (out', ws') => out' = out /\ (names -> Forall2 (moved_warning k) ws ws')
  | Panic, Panic => True
  | _, _ => False
  end.

(** C60 for trees: whatever lines stand before and after the lines of a text,
    the output is the same and so are the formatter calls; the warnings name the
    lines at which it now stands, unless the other lines define names. *)
Theorem C60_tree : forall pre src post ends_nl ends' p p' cs,
  Forall (placed (List.length src)) cs -> Forall (fun c => no_document c = true) cs ->
  (post = [] /\ ends' = ends_nl \/ Forall (fun c => ~ directs c DisableFile) cs) ->
  match serialize_root U PN ENT o B src ends_nl checks (Node NDocument p cs),
        serialize_root U PN ENT o B (pre ++ src ++ post) ends' checks
          (Node NDocument p' (map (moved (List.length pre)) cs)) with
  | Ok s, Ok t => output t = output s /\ calls t = calls s
      /\ (same_names src (pre ++ src ++ post) -> Forall2 (moved_warning (List.length pre)) (warnings s) (warnings t))
  | Panic, Panic => True
  | _, _ => False
  end.
Proof.
  intros pre src post ends_nl ends' p p' cs Pl Nd Cl.
  assert (C : Forall (closed post ends_nl ends') cs).
  { apply Forall_forall. intros c Ic. destruct Cl as [Cl|Cl]; [left; exact Cl|]. right. rewrite Forall_forall in Cl. intro Q. apply (Cl c Ic). apply DocProof.directs_iff. exact Q. }
  pose proof (root_moved U PN ENT o B pre src post ends_nl ends' checks p p' cs Pl Nd C) as M.
  destruct (serialize_root U PN ENT o B src _ _ _) as [s|], (serialize_root U PN ENT o B (pre ++ src ++ post) _ _ _) as [t|]; cbn [meet] in M; try exact M.
  destruct M as (ws & -> & A). split; [reflexivity|]. split; [reflexivity|exact A].
Qed.

Variable parse : str -> node.
Local Notation fmt := (format_with_warnings U PN ENT parse o B checks).

(** C60 for texts: lines before and after a text in which the parser finds no
    blocks change nothing in the output. *)
Theorem C60_format : forall a input b p p' cs, input <> [] ->
  (a = [] \/ ends_with_newline a = true) -> (b = [] \/ ends_with_newline input = true) ->
  parse input = Node NDocument p cs ->
  parse (a ++ input ++ b) = Node NDocument p' (map (moved (List.length (lines a))) cs) ->
  Forall (placed (List.length (lines input))) cs -> Forall (fun c => no_document c = true) cs ->
  (b = [] \/ Forall (fun c => ~ directs c DisableFile) cs) ->
  same_below (List.length (lines a)) (same_names (lines input) (lines (a ++ input ++ b)))
    (fmt input) (fmt (a ++ input ++ b)).
Proof.
  intros a input b p p' cs Ni Ha Hb P P' Pl Nd Cl. unfold format_with_warnings.
  assert (N1 : is_nil input = false) by (destruct input; [contradiction|reflexivity]).
  assert (N2 : is_nil (a ++ input ++ b) = false) by (destruct a; [destruct input; [contradiction|reflexivity]|reflexivity]).
  rewrite N1, N2, P, P'.
  assert (L : lines (a ++ input ++ b) = lines a ++ lines input ++ lines b).
  { destruct Ha as [->|Ha]; [cbn [app]; change (lines []) with (@nil str); cbn [app]|rewrite lines_app by exact Ha; f_equal];
      (destruct Hb as [->|Hb]; [change (lines []) with (@nil str); rewrite !app_nil_r; reflexivity|apply lines_app; exact Hb]). }
  rewrite L.
  assert (X : lines b = [] /\ ends_with_newline (a ++ input ++ b) = ends_with_newline input \/ Forall (fun c => ~ directs c DisableFile) cs).
  { destruct Cl as [->|Cl]; [left|right; exact Cl]. split; [reflexivity|]. rewrite app_nil_r. apply ends_nl_app. exact Ni. }
  pose proof (C60_tree (lines a) (lines input) (lines b) (ends_with_newline input) (ends_with_newline (a ++ input ++ b)) p p' cs Pl Nd X) as T.
  destruct (serialize_root U PN ENT o B (lines input) _ _ _) as [s|]; destruct (serialize_root U PN ENT o B (lines a ++ lines input ++ lines b) _ _ _) as [t|];
    cbn [rbind same_below]; try exact T. destruct T as (T1 & _ & T2). split; [exact T1|exact T2].
Qed.

(** Empty lines before a document change nothing but the lines of its warnings. *)
Corollary C60_empty_lines : forall n input p p' cs, input <> [] ->
  parse input = Node NDocument p cs ->
  parse (repeat c_nl n ++ input) = Node NDocument p' (map (moved n) cs) ->
  Forall (placed (List.length (lines input))) cs -> Forall (fun c => no_document c = true) cs ->
  same_below n True (fmt input) (fmt (repeat c_nl n ++ input)).
Proof.
  intros n input p p' cs Ni P P' Pl Nd.
  assert (Ln : List.length (lines (repeat c_nl n)) = n) by (rewrite lines_newlines; apply repeat_length).
  assert (Ha : repeat c_nl n = [] \/ ends_with_newline (repeat c_nl n) = true).
  { destruct n as [|n]; [left; reflexivity|right]. replace (repeat c_nl (Datatypes.S n)) with (repeat c_nl n ++ [c_nl]); [apply ends_nl_app; discriminate|].
    symmetry. apply (repeat_cons n c_nl). }
  pose proof (C60_format (repeat c_nl n) input [] p p' cs Ni Ha (or_introl eq_refl) P) as T. rewrite app_nil_r, Ln in T.
  specialize (T P' Pl Nd (or_introl eq_refl)).
  assert (S : same_names (lines input) (lines (repeat c_nl n ++ input))).
  { assert (L : lines (repeat c_nl n ++ input) = repeat [] n ++ lines input).
    { destruct Ha as [E|E]; [|rewrite lines_app, lines_newlines by exact E; reflexivity]. rewrite E. destruct n; [reflexivity|discriminate E]. }
    rewrite L. unfold same_names, captures. split; intro x; rewrite flat_map_app, in_app_iff;
      (assert (Z : forall f : str -> option str, f [] = None -> flat_map (fun l => match f l with Some y => [y] | None => [] end) (repeat [] n) = [])
         by (intros f F; clear - F; induction n as [|n IH]; [reflexivity|]; cbn [repeat flat_map]; rewrite F; exact IH));
      rewrite Z by reflexivity; (split; [intros [[]|H]; exact H|intro H; right; exact H]). }
  unfold same_below in *. destruct (fmt input) as [[x ws]|], (fmt (repeat c_nl n ++ input)) as [[y ws']|]; try exact T. destruct T as [T1 T2]. split; [exact T1|]. intros _. apply T2. exact S.
Qed.

(** Line endings of two characters change nothing, given that the parser finds
    the same document (HTML and code keep theirs, so not with these): every line
    ending becomes CR LF. *)
Definition crlf (s : str) : str := flat_map (fun c => if N.eqb c 10 then [13%N; 10%N] else [c]) s.
Corollary C60_line_endings : forall input, ~ In 13%N input -> parse (crlf input) = parse input -> fmt (crlf input) = fmt input.
Proof.
  intros input N P. unfold format_with_warnings. rewrite P.
  assert (Z : is_nil (crlf input) = is_nil input) by (destruct input as [|c r]; [reflexivity|]; cbn [crlf flat_map]; destruct (N.eqb c 10); reflexivity).
  assert (L : lines (crlf input) = lines input).
  { assert (L : forall s cur, ~ In c_cr s -> ~ In c_cr cur -> lines_aux cur (crlf s) = lines_aux cur s); [|apply L; [exact N|intros []]].
    clear. induction s as [|x r IH]; intros cur Ns Nc; [reflexivity|].
    assert (Nr : ~ In c_cr r) by (intro J; apply Ns; right; exact J). assert (Nx : x <> c_cr) by (intro J; apply Ns; left; exact J).
    cbn [crlf flat_map lines_aux]. destruct (ceq_spec x c_nl) as [->|D].
    - change (N.eqb c_nl 10) with true. cbn iota. cbn [app lines_aux]. change (ceq 13%N c_nl) with false. change (ceq 10%N c_nl) with true. cbn iota.
      assert (Q : forall a, ~ In c_cr a -> strip_cr (rev (13%N :: a)) = strip_cr (rev a)).
      { intros a Na. unfold strip_cr. rewrite !rev_involutive. change (ceq 13%N c_cr) with true. cbn iota.
        destruct a as [|y a]; [reflexivity|]. destruct (ceq_spec y c_cr) as [->|]; [exfalso; apply Na; left; reflexivity|reflexivity]. }
      rewrite Q by exact Nc. f_equal. apply IH; [exact Nr|intros []].
    - assert (E : N.eqb x 10 = false) by (apply N.eqb_neq; exact D). rewrite E. cbn [app lines_aux].
      destruct (ceq_spec x c_nl); [contradiction|]. apply IH; [exact Nr|]. intros [J|J]; [exact (Nx J)|exact (Nc J)]. }
  assert (E : ends_with_newline (crlf input) = ends_with_newline input).
  { unfold ends_with_newline, ends_with, strip_suffix. clear. destruct input as [|c r] using rev_ind; [reflexivity|]. unfold crlf.
    rewrite flat_map_app. cbn [flat_map]. rewrite !rev_app_distr. destruct (N.eqb_spec c 10) as [->|D]; [reflexivity|].
    cbn [app rev strip_prefix]. destruct (ceq_spec c_nl c) as [<-|]; [exfalso; apply D; reflexivity|reflexivity]. }
  rewrite Z, L, E. reflexivity.
Qed.

(** The newline at the end of a document changes nothing. *)
Corollary C60_final_newline : forall input c p cs,
  c <> c_nl -> c <> c_cr ->
  parse (input ++ [c]) = Node NDocument p cs -> parse (input ++ [c; c_nl]) = Node NDocument p cs ->
  Forall (placed (List.length (lines (input ++ [c])))) cs -> Forall (fun n => no_document n = true) cs ->
  Forall (fun n => ~ directs n DisableFile) cs ->
  fmt (input ++ [c; c_nl]) = fmt (input ++ [c]).
Proof.
  intros input c p cs Nn Nc P P' Pl Nd Cl. unfold format_with_warnings.
  assert (N1 : is_nil (input ++ [c]) = false) by (destruct input; reflexivity). assert (N2 : is_nil (input ++ [c; c_nl]) = false) by (destruct input; reflexivity).
  assert (L : lines (input ++ [c; c_nl]) = lines (input ++ [c])).
  { assert (L : forall s cur, lines_aux cur (s ++ [c; c_nl]) = lines_aux cur (s ++ [c])); [|apply L].
    clear - Nn Nc. induction s as [|x r IH]; intro cur; cbn [app lines_aux].
    - destruct (ceq_spec c c_nl); [contradiction|]. change (ceq c_nl c_nl) with true. cbn iota. change (is_nil (c :: cur)) with false. cbn iota.
      assert (Q : strip_cr (rev (c :: cur)) = rev (c :: cur)).
      { unfold strip_cr. rewrite rev_involutive. destruct (ceq_spec c c_cr); [contradiction|reflexivity]. }
      rewrite Q. reflexivity.
    - destruct (ceq x c_nl); rewrite IH; reflexivity. }
  rewrite N1, N2, P, P', L.
  pose proof (C60_tree [] (lines (input ++ [c])) [] (ends_with_newline (input ++ [c])) (ends_with_newline (input ++ [c; c_nl])) p p cs Pl Nd (or_intror Cl)) as T.
  rewrite app_nil_r in T. cbn [app List.length] in T.
  assert (Z : map (moved 0) cs = cs).
  { clear. rewrite <- (map_id cs) at 2. apply map_ext. intro n. induction n as [v pos cs' IH] using StateProof.node_ind'. cbn [moved]. f_equal; [destruct pos; reflexivity|].
    rewrite <- (map_id cs') at 2. apply map_ext_in. rewrite Forall_forall in IH. exact IH. }
  rewrite Z in T.
  destruct (serialize_root U PN ENT o B _ (ends_with_newline (input ++ [c])) _ _) as [s|]; destruct (serialize_root U PN ENT o B _ (ends_with_newline (input ++ [c; c_nl])) _ _) as [t|];
    cbn [rbind]; try contradiction; [|reflexivity]. destruct T as (-> & _ & T).
  assert (S : Forall2 (moved_warning 0) (warnings s) (warnings t)) by (apply T; split; intro; tauto).
  assert (W : warnings t = warnings s).
  { clear - S. induction S as [|w w' a b [A M] _ IH]; [reflexivity|]. f_equal; [|exact IH]. destruct w as [l m], w' as [l' m']. cbn [warn_line warn_message] in *.
    assert (E : l' = l) by (unfold moved_line in A; destruct l; exact A). rewrite E. clear A E. f_equal. destruct M as [M|(h & k & M1 & M2)]; [congruence|]. subst m m'. reflexivity. }
  rewrite W. reflexivity.
Qed.

(** C56 for texts: a text followed by a text that opens a section is formatted
    as both are on their own. *)
Theorem C56_texts_partial : forall x y a l h b p q r sA sB, steady B -> y <> [] -> ends_with_newline x = true ->
  parse x = Node NDocument p (a ++ [l]) -> parse y = Node NDocument q (h :: b) ->
  parse (x ++ y) = Node NDocument r ((a ++ [l]) ++ map (moved (List.length (lines x))) (h :: b)) ->
  Forall (placed (List.length (lines x))) (a ++ [l]) -> Forall (placed (List.length (lines y))) (h :: b) ->
  Forall inert (a ++ [l]) -> closing l -> opens_section h ->
  Forall (fun c => no_document c = true /\ no_notes c) (h :: b) ->
  serialize_root U PN ENT o B (lines x) true checks (parse x) = Ok sA ->
  serialize_root U PN ENT o B (lines y) (ends_with_newline y) checks (parse y) = Ok sB ->
  (forall u d, In u (uses (trace sB)) -> In d (defs (trace sA)) -> ref_label u <> ref_label d) ->
  forall out ws, fmt (x ++ y) = Ok (out, ws) -> out = output sA ++ between l h ++ output sB.
Proof.
  intros x y a l h b p q r sA sB St Ny Ex Px Py Pxy PA PB Ia Cl Os Ib RA RB Dj out ws F.
  unfold format_with_warnings in F. assert (N : is_nil (x ++ y) = false) by (destruct x; [destruct y; [contradiction|reflexivity]|reflexivity]). rewrite N in F.
  rewrite Px in RA. rewrite Py in RB. rewrite Pxy in F. rewrite lines_app, ends_nl_app in F by assumption.
  destruct (serialize_root U PN ENT o B (lines x ++ lines y) (ends_with_newline y) checks _) as [s|] eqn:RS in F; [|discriminate F]. cbn [rbind] in F. injection F as <- _.
  assert (MA := root_moved U PN ENT o B [] (lines x) (lines y) true (ends_with_newline y) checks p p (a ++ [l]) PA).
  rewrite RA in MA. cbn [app List.length] in MA.
  assert (Z : map (moved 0) (a ++ [l]) = a ++ [l]).
  { clear. rewrite <- (map_id (a ++ [l])) at 2. apply map_ext. intro n. induction n as [v pos cs IH] using StateProof.node_ind'. cbn [moved]. f_equal; [destruct pos; reflexivity|].
    rewrite <- (map_id cs) at 2. apply map_ext_in. rewrite Forall_forall in IH. exact IH. }
  rewrite Z in MA.
  assert (MB := root_moved U PN ENT o B (lines x) (lines y) [] (ends_with_newline y) (ends_with_newline y) checks q q (h :: b) PB).
  rewrite RB, app_nil_r in MB.
  assert (DA : Forall (fun c => no_document c = true) (a ++ [l])) by (eapply Forall_impl; [|exact Ia]; intros c [D _ _ _]; exact D).
  assert (CA : Forall (closed (lines y) true (ends_with_newline y)) (a ++ [l])).
  { eapply Forall_impl; [|exact Ia]. intros c [_ _ _ D]. right. intro Q. apply (D DisableFile). apply DocProof.directs_iff. exact Q. }
  assert (DB : Forall (fun c => no_document c = true) (h :: b)) by (eapply Forall_impl; [|exact Ib]; intros c [D _]; exact D).
  assert (CB : Forall (closed [] (ends_with_newline y) (ends_with_newline y)) (h :: b)) by (apply Forall_forall; intros c _; left; split; reflexivity).
  specialize (MA DA CA). specialize (MB DB CB). unfold meet in MA, MB.
  destruct (serialize_root U PN ENT o B (lines x ++ lines y) _ checks (Node NDocument p (a ++ [l]))) as [tA|] eqn:TA; [|contradiction].
  destruct (serialize_root U PN ENT o B (lines x ++ lines y) _ checks (Node NDocument q (map _ (h :: b)))) as [tB|] eqn:TB; [|contradiction].
  destruct MA as (wA & EA & _). destruct MB as (wB & EB & _).
  assert (OA : output tA = output sA) by (rewrite EA; reflexivity). assert (OB : output tB = output sB) by (rewrite EB; reflexivity).
  assert (UA : forall pr e, defs (map (mevent pr) e) = defs e) by (intros pr e; unfold defs in *; induction e as [|[] e IH]; cbn [map flat_map mevent app]; rewrite ?IH; reflexivity).
  assert (UB : forall pr e, uses (map (mevent pr) e) = uses e) by (intros pr e; unfold uses in *; induction e as [|[] e IH]; cbn [map flat_map mevent app]; rewrite ?IH; reflexivity).
  assert (Bt : between l h = between l (moved (List.length (lines x)) h)) by (unfold between; rewrite moved_value; reflexivity).
  rewrite <- OA, <- OB, Bt. cbn [map] in TB, RS.
  eapply (PropsParts.C56_parts_partial U PN ENT o B (lines x ++ lines y) (ends_with_newline y) checks a l (moved _ h) (map (moved _) b)); try eassumption.
  - unfold opens_section in *. rewrite moved_value. exact Os.
  - change (moved (List.length (lines x)) h :: map (moved (List.length (lines x))) b) with (map (moved (List.length (lines x))) (h :: b)).
    clear - Ib. assert (ND : forall k n, no_document (moved k n) = no_document n).
    { intros k n. induction n as [v pos cs IH] using StateProof.node_ind'. cbn [moved no_document]. f_equal. induction IH as [|c cs E _ IH]; [reflexivity|]. cbn [map forallb]. rewrite E, IH. reflexivity. }
    assert (NN : forall k n, no_notes n -> no_notes (moved k n)).
    { intros k n. induction n as [v pos cs IH] using StateProof.node_ind'. intros H m W. cbn [moved] in W. inversion W as [|v' p' cs' c Ic Wc]; subst.
      - exact (H _ (within_here _)).
      - apply in_map_iff in Ic. destruct Ic as (c' & <- & Ic). rewrite Forall_forall in IH. apply (IH c' Ic); [|exact Wc]. intros m' Wm. apply H. eapply within_below; [exact Ic|exact Wm]. }
    induction Ib as [|c cs [D1 D2] _ IH]; [constructor|]. cbn [map]. constructor; [|exact IH]. rewrite ND. split; [exact D1|apply NN; exact D2].
  - intros u d Iu Id. apply Dj.
    + rewrite EB in Iu. cbn [shifted trace] in Iu. rewrite UB in Iu. exact Iu.
    + rewrite EA in Id. cbn [shifted trace] in Id. rewrite UA in Id. exact Id.
Qed.
End Whole.
Print Assumptions C60_tree.
Print Assumptions C60_format.
Print Assumptions C60_empty_lines.
Print Assumptions C60_final_newline.
Print Assumptions C60_line_endings.
Print Assumptions C56_texts_partial.

(** A document with a footnote, a table whose row has too many pipes and an
    undefined reference; alone, and after three empty lines. *)
Definition input60 : str := lit "A [x] b[^1].

| a |
|---|
| b | c |

[^1]: Note

## H
".
Definition at60 (l c l' c' : nat) : sourcepos := mkPos l c l' c'.
Definition cell60 (l : nat) (t : string) : node :=
  Node NTableCell (at60 l 2 l 4) [Node (NText (lit t)) (at60 l 3 l 3) []].
Definition tree60 : list node :=
  [ Node NParagraph (at60 1 1 1 12) [Node (NText (lit "A [x] b")) (at60 1 1 1 7) []; Node (NFootnoteReference (lit "1")) (at60 1 8 1 11) []; Node (NText (lit ".")) (at60 1 12 1 12) []];
    Node (NTable [ANone]) (at60 3 1 5 9) [Node NTableRow (at60 3 1 3 5) [cell60 3 "a"]; Node NTableRow (at60 5 1 5 9) [cell60 5 "b"]];
    Node (NFootnoteDefinition (lit "1")) (at60 7 1 7 10) [Node NParagraph (at60 7 7 7 10) [Node (NText (lit "Note")) (at60 7 7 7 10) []]];
    Node (NHeading 2) (at60 9 1 9 4) [Node (NText (lit "H")) (at60 9 4 9 4) []] ].
Definition parse60 (s : str) : node :=
  if seqb s input60 then Node NDocument (at60 1 1 9 4) tree60
  else Node NDocument (at60 4 1 12 4) (map (moved 3) tree60).
Definition run60 (s : str) : res (str * list warning) :=
  format_with_warnings uni_ascii [] (fun _ => None) parse60 default_options (Wasm None) true s.
Definition warned60 (r : res (str * list warning)) : list nat :=
  match r with Ok (_, ws) => map warn_line ws | Panic => [] end.
Example C60_witness :
  parse60 (repeat c_nl 3 ++ input60) = Node NDocument (at60 4 1 12 4) (map (moved 3) (node_children (parse60 input60)))
  /\ Forall (placed (List.length (lines input60))) tree60
  /\ Forall (fun c => no_document c = true) tree60
  /\ warned60 (run60 input60) = [1; 5] /\ warned60 (run60 (repeat c_nl 3 ++ input60)) = [4; 8]
  /\ (exists out ws ws', run60 input60 = Ok (out, ws) /\ run60 (repeat c_nl 3 ++ input60) = Ok (out, ws') /\ out <> []).
Proof.
  split; [vm_compute; reflexivity|]. split.
  - change (List.length (lines input60)) with 9. repeat constructor.
  - split; [repeat constructor|]. split; [vm_compute; reflexivity|]. split; [vm_compute; reflexivity|].
    do 3 eexists. split; [vm_compute; reflexivity|]. split; [vm_compute; reflexivity|]. discriminate.
Qed.

(** Two texts, and one after the other. *)
Definition x56 : str := lit "# A

One [l](https://a.net).
".
Definition y56 : str := lit "B
-

Two [m](https://b.net).
".
Definition head56t (level l l' : nat) (t : string) : node := Node (NHeading level) (at60 l 1 l' 3) [Node (NText (lit t)) (at60 l 3 l 3) []].
Definition para56t (l : nat) (t label url : string) : node :=
  Node NParagraph (at60 l 1 l 23) [Node (NText (lit t)) (at60 l 1 l 4) []; Node (NLink (lit url) []) (at60 l 5 l 22) [Node (NText (lit label)) (at60 l 6 l 6) []]; Node (NText (lit ".")) (at60 l 23 l 23) []].
Definition beginning56 : list node := [head56t 1 1 1 "A"].
Definition last56 : node := para56t 3 "One " "l" "https://a.net".
Definition open56 : node := head56t 2 1 2 "B".
Definition more56 : list node := [para56t 4 "Two " "m" "https://b.net"].
Definition parse56 (s : str) : node :=
  Node NDocument (at60 1 1 7 7)
    (if seqb s x56 then beginning56 ++ [last56]
     else if seqb s y56 then open56 :: more56
     else (beginning56 ++ [last56]) ++ map (moved 3) (open56 :: more56)).
Definition fmt56 (s : str) : str :=
  match format_with_warnings uni_ascii [] (fun _ => None) parse56 default_options (Wasm None) true s with Ok (out, _) => out | Panic => [] end.
Definition state56 (s : str) : res st :=
  serialize_root uni_ascii [] (fun _ => None) default_options (Wasm None) (lines s) true true (parse56 s).
Example C56_texts_witness :
  ends_with_newline x56 = true /\ ends_with_newline y56 = true
  /\ parse56 (x56 ++ y56) = Node NDocument (at60 1 1 7 7) ((beginning56 ++ [last56]) ++ map (moved (List.length (lines x56))) (open56 :: more56))
  /\ Forall (placed (List.length (lines x56))) (beginning56 ++ [last56]) /\ Forall (placed (List.length (lines y56))) (open56 :: more56)
  /\ Forall inert (beginning56 ++ [last56]) /\ closing last56 /\ opens_section open56
  /\ Forall (fun c => no_document c = true /\ no_notes c) (open56 :: more56)
  /\ PropsParts.defs56 (state56 x56) = [lit "l"] /\ PropsParts.uses56 (state56 y56) = [lit "m"]
  /\ fmt56 x56 <> [] /\ fmt56 y56 <> [] /\ fmt56 (x56 ++ y56) = fmt56 x56 ++ [c_nl; c_nl] ++ fmt56 y56.
Proof.
  assert (NN : forall c, In c (beginning56 ++ last56 :: open56 :: more56) -> no_notes c).
  { intros c Ic m W. unfold beginning56, last56, open56, more56, head56t, para56t in Ic.
    repeat match goal with
    | X : In _ (_ ++ _) |- _ => cbn [app] in X
    | X : In _ (_ :: _) |- _ => destruct X as [<-|X]
    | X : In _ [] |- _ => destruct X
    end;
    repeat match goal with
    | X : within _ (Node _ _ _) |- _ => inversion X; subst; clear X
    | X : In _ (_ :: _) |- _ => destruct X as [<-|X]
    | X : In _ [] |- _ => destruct X
    end; exact Logic.I. }
  split; [reflexivity|]. split; [reflexivity|]. split; [vm_compute; reflexivity|].
  split; [change (List.length (lines x56)) with 3; repeat constructor|]. split; [change (List.length (lines y56)) with 4; repeat constructor|].
  split; [|split; [exact Logic.I|split; [left; reflexivity|split; [|vm_compute; repeat split; discriminate]]]].
  - apply Forall_forall. intros c Ic. split; [| |destruct Ic as [<-|[<-|[]]]; reflexivity|intros d (u & v & V & _); destruct Ic as [<-|[<-|[]]]; discriminate V].
    + destruct Ic as [<-|[<-|[]]]; reflexivity.
    + apply NN. destruct Ic as [<-|[<-|[]]]; cbn; auto.
  - apply Forall_forall. intros c Ic. split; [destruct Ic as [<-|[<-|[]]]; reflexivity|]. apply NN. destruct Ic as [<-|[<-|[]]]; cbn; auto.
Qed.

(** Without and with the newline at its end. *)
Definition run60n (s : string) : res (str * list warning) :=
  format_with_warnings uni_ascii [] (fun _ => None)
    (fun _ => Node NDocument (at60 1 1 1 5) [Node NParagraph (at60 1 1 1 5) [Node (NText (lit "A [x]")) (at60 1 1 1 5) []]])
    default_options (Wasm None) true (lit s).
Example C60_final_newline_witness :
  run60n "A [x]
" = run60n "A [x]" /\ warned60 (run60n "A [x]") = [1]
  /\ match run60n "A [x]" with Ok (out, _) => out = lit "A [x]
" | Panic => False end.
Proof. vm_compute. repeat split. Qed.

(** A document with both kinds of line endings. *)
Definition dos60 : str := lit "A [x] \*
b
".
Definition run60d (s : str) : res (str * list warning) :=
  format_with_warnings uni_ascii [] (fun _ => None)
    (fun _ => Node NDocument (at60 1 1 2 1)
      [Node NParagraph (at60 1 1 2 1) [Node (NText (lit "A [x] *")) (at60 1 1 1 8) []; Node NSoftBreak (at60 1 9 1 9) []; Node (NText (lit "b")) (at60 2 1 2 1) []]])
    default_options (Wasm None) true s.
Example C60_line_endings_witness :
  crlf dos60 <> dos60 /\ ~ In 13%N dos60 /\ run60d (crlf dos60) = run60d dos60 /\ warned60 (run60d dos60) = [1]
  /\ match run60d dos60 with Ok (out, _) => out = dos60 | Panic => False end.
Proof. split; [vm_compute; discriminate|]. split; [vm_compute; intuition discriminate|]. vm_compute. repeat split. Qed.
