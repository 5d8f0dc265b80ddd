(** C56: a document is formatted section by section. *)
From Coq Require Import Bool Arith NArith Lia ZifyBool ZifyNat ZifyN String List.
From Verif Require Import Base BaseFacts OptsModel WrapModel CodeModel TableModel HeadingModel AstModel StateModel
  InlineModel WarnModel SerModel SpecContext SpecRefs SpecParts FrameProof PartsProof.
From Verif Require DocProof PropsScope.
Import ListNotations.

Section Whole.
Variable U : Uni.
Variable PN : list (str * str).
Variable ENT : str -> option str.
Variable o : Options.
Variable B : backend.
Variable src : list str.
Variable ends_nl : bool.
Variable checks : bool.
Notation root n := (serialize_root U PN ENT o B src ends_nl checks n).

(** C56: the text of a document that goes on with a section is the text of its
    beginning, the separation, and the text of the rest as if it stood alone.
    Partial: no footnotes, no directives in the beginning, no label that is
    defined in the beginning and used in the rest (refuted below), and
    the formatter answers the same whenever it is asked. *)
Theorem C56_parts_partial : forall a l h b p q r sA sB s, steady B ->
  Forall inert (a ++ [l]) -> closing l -> opens_section h ->
  Forall (fun c => no_document c = true /\ no_notes c) (h :: b) ->
  root (Node NDocument p (a ++ [l])) = Ok sA ->
  root (Node NDocument q (h :: b)) = Ok sB ->
  root (Node NDocument r ((a ++ [l]) ++ h :: b)) = Ok s ->
  (forall u d, In u (uses (trace sB)) -> In d (defs (trace sA)) -> ref_label u <> ref_label d) ->
  output s = output sA ++ between l h ++ output sB.
Proof.
  intros a l h b p q r sA sB s St Ia Cl Os Ib XA XB XC Dj.
  assert (Lv : exists level, node_value h = NHeading level /\ (level = 2 \/ level = 3)) by (destruct Os as [V|V]; eexists; split; try exact V; auto).
  destruct Lv as (level & V & Lv). rewrite <- (last_last a l l) at 1.
  assert (Nl : no_notes l) by (rewrite Forall_app in Ia; destruct Ia as [_ Ia]; inversion Ia; subst; apply in_no_notes; assumption).
  eapply (parts U PN ENT o B src ends_nl checks St (a ++ [l]) h b p q r level); try eassumption.
  - destruct a; discriminate.
  - eapply Forall_impl; [|exact Ia]. intros c [D N0 W Di]. split; [exact D|]. split; [exact N0|]. split; [exact W|].
    destruct (directive_of c) as [d|] eqn:Q; [|reflexivity]. destruct (Di d). apply DocProof.directs_iff. exact Q.
  - intros c Ic. rewrite Forall_forall in Ib. exact (Ib c Ic).
  - rewrite last_last. pose proof (Nl _ (within_here _)) as X. unfold stops, closing in *. destruct (node_value l); try exact Logic.I; contradiction.
  - rewrite last_last. unfold closing in Cl. destruct (node_value l); try exact Logic.I; contradiction.
Qed.

(** What stands before a section changes nothing in its text. *)
Corollary C56_beginning_partial : forall a l a' l' h b p p' q r r' sA sA' sB s s', steady B ->
  Forall inert (a ++ [l]) -> closing l -> Forall inert (a' ++ [l']) -> closing l' -> opens_section h ->
  Forall (fun c => no_document c = true /\ no_notes c) (h :: b) ->
  root (Node NDocument p (a ++ [l])) = Ok sA -> root (Node NDocument p' (a' ++ [l'])) = Ok sA' ->
  root (Node NDocument q (h :: b)) = Ok sB ->
  root (Node NDocument r ((a ++ [l]) ++ h :: b)) = Ok s -> root (Node NDocument r' ((a' ++ [l']) ++ h :: b)) = Ok s' ->
  (forall u d, In u (uses (trace sB)) -> In d (defs (trace sA)) -> ref_label u <> ref_label d) ->
  (forall u d, In u (uses (trace sB)) -> In d (defs (trace sA')) -> ref_label u <> ref_label d) ->
  exists text, (exists x, output s = output sA ++ x ++ text) /\ (exists x, output s' = output sA' ++ x ++ text) /\ text = output sB.
Proof.
  intros a l a' l' h b p p' q r r' sA sA' sB s s' St I1 C1 I2 C2 Os Ib XA XA' XB XC XC' D1 D2. exists (output sB). split; [|split; [|reflexivity]].
  - exists (between l h). apply (C56_parts_partial a l h b p q r sA sB s); assumption.
  - exists (between l' h). apply (C56_parts_partial a' l' h b p' q r' sA' sB s'); assumption.
Qed.
End Whole.
Print Assumptions C56_parts_partial.
Print Assumptions C56_beginning_partial.

(** A beginning with a link, and a section with another. *)
Definition para56 (line : nat) (text url : string) : node :=
  Node NParagraph (mkPos line 1 line 9) [Node (NLink (lit url) []) (mkPos line 1 line 9) [Node (NText (lit text)) (mkPos line 1 line 9) []]].
Definition head56 (level line : nat) : node := Node (NHeading level) (mkPos line 1 line 9) [Node (NText (lit "H")) (mkPos line 1 line 9) []].
Definition run56 (cs : list node) : res st :=
  serialize_root uni_ascii [] (fun _ => None) default_options (Wasm None) [] true true (Node NDocument (mkPos 1 1 9 9) cs).
Definition first56 : list node := [head56 1 1; para56 3 "a" "https://a.net"].
Definition rest56 : list node := [para56 7 "b" "https://b.net"; head56 3 9].
Definition text56 (r : res st) : str := match r with Ok s => output s | Panic => [] end.
Definition uses56 (r : res st) : list str := match r with Ok s => map ref_label (uses (trace s)) | Panic => [] end.
Definition defs56 (r : res st) : list str := match r with Ok s => map ref_label (defs (trace s)) | Panic => [] end.
Example C56_witness :
  Forall inert first56 /\ closing (para56 3 "a" "https://a.net") /\ opens_section (head56 2 5)
  /\ Forall (fun c => no_document c = true /\ no_notes c) (head56 2 5 :: rest56)
  /\ defs56 (run56 first56) = [lit "a"] /\ uses56 (run56 (head56 2 5 :: rest56)) = [lit "b"]
  /\ text56 (run56 first56) <> [] /\ text56 (run56 (head56 2 5 :: rest56)) <> []
  /\ text56 (run56 (first56 ++ head56 2 5 :: rest56))
     = text56 (run56 first56) ++ [c_nl; c_nl] ++ text56 (run56 (head56 2 5 :: rest56)).
Proof.
  assert (NN : forall c, In c (first56 ++ head56 2 5 :: rest56) -> no_notes c).
  { intros c Ic m W. unfold first56, rest56, head56, para56 in Ic.
    repeat match goal with
    | X : In _ (_ ++ _) |- _ => cbn [app] in X
    | X : In _ (_ :: _) |- _ => destruct X as [<-|X]
    | X : In _ [] |- _ => destruct X
    end;
    repeat match goal with
    | X : within _ (Node _ _ _) |- _ => inversion X; subst; clear X
    | X : In _ (_ :: _) |- _ => destruct X as [<-|X]
    | X : In _ [] |- _ => destruct X
    end; exact Logic.I. }
  split; [|split; [exact Logic.I|split; [left; reflexivity|split; [|vm_compute; repeat split; discriminate]]]].
  - apply Forall_forall. intros c Ic. split; [| |destruct Ic as [<-|[<-|[]]]; reflexivity|intros d (x & y & V & _); destruct Ic as [<-|[<-|[]]]; discriminate V].
    + destruct Ic as [<-|[<-|[]]]; reflexivity.
    + apply NN. apply in_or_app. left. exact Ic.
  - apply Forall_forall. intros c Ic. split; [destruct Ic as [<-|[<-|[<-|[]]]]; reflexivity|]. apply NN. apply in_or_app. right. exact Ic.
Qed.

(** C56, refuted without the condition on labels: the definition of [a] is
    written in the beginning and not again in the section. *)
Theorem C56_labels_refuted : exists a l h b sA sB s,
  Forall inert (a ++ [l]) /\ closing l /\ opens_section h /\ run56 (a ++ [l]) = Ok sA /\ run56 (h :: b) = Ok sB
  /\ run56 ((a ++ [l]) ++ h :: b) = Ok s /\ output s <> output sA ++ between l h ++ output sB.
Proof.
  destruct C56_witness as (W & _). exists [head56 1 1], (para56 3 "a" "https://a.net"), (head56 2 5), [para56 7 "a" "https://a.net"]. do 3 eexists.
  split; [exact W|]. split; [exact Logic.I|]. split; [left; reflexivity|].
  split; [vm_compute; reflexivity|]. split; [vm_compute; reflexivity|]. split; [vm_compute; reflexivity|]. vm_compute. discriminate.
Qed.
Print Assumptions C56_labels_refuted.
