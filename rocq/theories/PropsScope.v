(** C54 and C55: what the settings of a section are used for. *)
From Coq Require Import Bool Arith NArith Lia ZifyBool ZifyNat ZifyN String List.
From Verif Require Import Base BaseFacts OptsModel WrapModel CodeModel TableModel HeadingModel AstModel StateModel
  InlineModel WarnModel SerModel SpecContext SpecScope ScopeProof.
Import ListNotations.

Section Scope.
Variable U : Uni.
Variable PN : list (str * str).
Variable ENT : str -> option str.
Variable B : backend.
Variable checks : bool.
Notation root o src nl n := (serialize_root U PN ENT o B src nl checks n).

(** C55: where the construct of a section does not occur, its settings change
    nothing: not the output, not the warnings, not whether there is a panic.
    Partial: the settings of bullet lists are also used for other lists in the
    details of a description list (refuted below), and items must stand in
    lists, as in every tree of the parser. *)
Theorem C55_settings_partial : forall sec a b src nl n, only_in sec a b -> without sec n ->
  (sec = BulletLists -> details_apart n /\ well_placed false n = true) ->
  root a src nl n = root b src nl n.
Proof.
  intros sec a b src nl n H W D. unfold serialize_root.
  refine (scoped U PN ENT a b B src nl checks sec H n W _ (None, false) _ None init_st eq_refl); [intro E; exact (proj1 (D E))|].
  split.
  - unfold outside. destruct sec; cbn; auto. discriminate.
  - intros E Z. discriminate Z.
  - intros E Z. contradiction.
  - intro E. exists false. split; [exact (proj2 (D E))|discriminate].
Qed.
(** The same of [format_with_warnings]. *)
Theorem C55_format_partial : forall sec a b parse input, only_in sec a b -> without sec (parse input) ->
  (sec = BulletLists -> details_apart (parse input) /\ well_placed false (parse input) = true) ->
  format_with_warnings U PN ENT parse a B checks input = format_with_warnings U PN ENT parse b B checks input.
Proof.
  intros sec a b parse input H W D. unfold format_with_warnings. destruct (is_nil input); [reflexivity|].
  rewrite (C55_settings_partial sec a b _ _ _ H W D). reflexivity.
Qed.

(** C54: the setting [ordered_list.pad] changes nothing at all. *)
Theorem C54_pad_ignored : forall a b parse input, only_in Pad a b ->
  format_with_warnings U PN ENT parse a B checks input = format_with_warnings U PN ENT parse b B checks input.
Proof. intros a b parse input H. apply (C55_format_partial Pad); [exact H|intros m _ []|discriminate]. Qed.
End Scope.
Print Assumptions C55_settings_partial.
Print Assumptions C55_format_partial.
Print Assumptions C54_pad_ignored.

(** ** Examples and refutations *)
Definition at54 (l : nat) : sourcepos := mkPos l 1 l 1.
Definition text54 (t : string) : node := Node (NText (lit t)) (at54 1) [].
Definition para54 (t : string) : node := Node NParagraph (at54 1) [text54 t].
Definition item54 (cs : list node) : node := Node NItem (at54 1) cs.
Definition run54 (o : Options) (cs : list node) : res str :=
  rbind (serialize_root uni_ascii [] (fun _ => None) o (Wasm None) [] true true (Node NDocument (at54 1) cs)) (fun s => Ok (output s)).
(** The options with other settings in one section. *)
Definition with54 (h : bool) (ts : nat) (odd : OrderedMarker) (pad : OrderedListPad) (fence : nat) (rule : str) : Options :=
  let d := default_options in
  mkOptions (line_width d) h (setext_h2 d) (heading_sentence_case d) (heading_proper_nouns d) (heading_common_nouns d)
    (unordered_marker d) (leading_spaces d) ts (indent_width d) odd (even_level_marker d) pad (ordered_list_indent_width d)
    (fence_char d) fence (space_after_fence d) (default_language d) rule (thematic_break_leading_spaces d)
    (curly_double_quotes d) (curly_single_quotes d) (curly_apostrophes d) (ellipsis d) (en_dash d) (em_dash d) (code_formatters d).
Definition changed54 (sec : section) : Options :=
  let r := default_thematic_break_style in
  match sec with
  | Headings => with54 false 2 OPeriod PadStart 4 r
  | BulletLists => with54 true 1 OPeriod PadStart 4 r
  | OrderedLists => with54 true 2 OParenthesis PadStart 4 r
  | Pad => with54 true 2 OPeriod PadEnd 4 r
  | CodeBlocks => with54 true 2 OPeriod PadStart 3 r
  | Rules => with54 true 2 OPeriod PadStart 4 (lit "***")
  end.
Definition piece54 (sec : section) : list node :=
  match sec with
  | Headings => [Node (NHeading 1) (at54 1) [text54 "h"]]
  | BulletLists => [Node (NList Bullet true) (at54 1) [item54 [para54 "a"]]]
  | OrderedLists => [Node (NList Ordered true) (at54 1) [item54 [para54 "a"]]]
  | Pad => []
  | CodeBlocks => [Node (NCodeBlock (lit "c") (lit "x")) (at54 1) []]
  | Rules => [Node NThematicBreak (at54 1) []]
  end.
Definition sections54 : list section := [Headings; BulletLists; OrderedLists; CodeBlocks; Rules].
Definition section_eqb (x y : section) : bool :=
  match x, y with
  | Headings, Headings | BulletLists, BulletLists | OrderedLists, OrderedLists | Pad, Pad | CodeBlocks, CodeBlocks | Rules, Rules => true
  | _, _ => false
  end.
(** C55: a document with everything but the construct of a section meets the
    conditions, and a document with the construct comes out differently. *)
Example C55_witness : forall sec, In sec sections54 ->
  only_in sec default_options (changed54 sec)
  /\ (let n := Node NDocument (at54 1) (flat_map piece54 (filter (fun x => negb (section_eqb x sec)) sections54)) in
      without sec n /\ details_apart n /\ well_placed false n = true)
  /\ run54 default_options (piece54 sec) <> run54 (changed54 sec) (piece54 sec).
Proof.
  assert (Inv : forall m v p cs, within m (Node v p cs) -> m = Node v p cs \/ exists c, In c cs /\ within m c).
  { intros m v p cs W. inversion W; subst; [left; reflexivity|right; eexists; split; eassumption]. }
  intros sec I. split; [|split].
  - destruct sec; split; intros; try reflexivity; contradiction.
  - assert (N : forall m, within m (Node NDocument (at54 1) (flat_map piece54 (filter (fun x => negb (section_eqb x sec)) sections54))) ->
      ~ governed sec (node_value m) /\ node_value m <> NDescriptionDetails).
    { intros m W. destruct I as [<-|[<-|[<-|[<-|[<-|[]]]]]]; cbn in W; unfold item54, para54, text54 in W;
        repeat match goal with
        | X : within _ (Node _ _ _) |- _ => apply Inv in X; destruct X as [->|(? & X & ?)]
        | X : In _ (_ :: _) |- _ => destruct X as [<-|X]
        | X : In _ [] |- _ => destruct X
        | X : False |- _ => destruct X
        | X : _ \/ _ |- _ => destruct X as [<-|X]
        end; split; try discriminate; intros G; cbn in G;
        repeat match goal with X : exists _, _ |- _ => destruct X as [? X] end; discriminate G. }
    cbv zeta. split; [intros m W; apply N; exact W|]. split; [|destruct I as [<-|[<-|[<-|[<-|[<-|[]]]]]]; reflexivity].
    intros m l kd t M V. exfalso. exact (proj2 (N m M) V).
  - destruct I as [<-|[<-|[<-|[<-|[<-|[]]]]]]; vm_compute; discriminate.
Qed.

(** C55, refuted for bullet lists: how an ordered list in the details of a
    description list continues a line depends on the spaces after bullets. *)
Definition details55 : list node :=
  [Node NDescriptionList (at54 1) [Node NDescriptionItem (at54 1) [
    Node NDescriptionTerm (at54 1) [text54 "t"];
    Node NDescriptionDetails (at54 1) [Node (NList Ordered true) (at54 1)
      [item54 [Node NParagraph (at54 1) [text54 "a"; Node NLineBreak (at54 1) []; text54 "b"]]]]]]].
Theorem C55_details_refuted : exists n,
  without BulletLists n /\ well_placed false n = true /\ only_in BulletLists default_options (changed54 BulletLists)
  /\ n = Node NDocument (at54 1) details55
  /\ run54 default_options details55 <> run54 (changed54 BulletLists) details55.
Proof.
  exists (Node NDocument (at54 1) details55). split; [|split; [reflexivity|split; [|split; [reflexivity|]]]].
  - intros m W (t & G). unfold details55, item54, text54 in W.
    repeat match goal with
    | X : within _ (Node _ _ _) |- _ => inversion X; subst; clear X
    | X : In _ (_ :: _) |- _ => destruct X as [<-|X]
    | X : In _ [] |- _ => destruct X
    end; discriminate G.
  - split; intros; try reflexivity; contradiction.
  - vm_compute. discriminate.
Qed.
Print Assumptions C55_details_refuted.

(** C54, refuted: with [pad = "start"], which is the default, the numbers of a
    list of ten items do not end in one column.  They are padded behind. *)
Definition ten54 : list node := [Node (NList Ordered true) (at54 1) (repeat (item54 [para54 "a"]) 10)].
Theorem C54_pad_refuted : exists out, ordered_list_pad default_options = PadStart
  /\ run54 default_options ten54 = Ok out /\ ~ right_aligned (lines out) /\ run54 (changed54 Pad) ten54 = Ok out.
Proof.
  eexists. split; [reflexivity|]. split; [vm_compute; reflexivity|]. split; [|vm_compute; reflexivity].
  intro R. assert (Z : number_end (lit "1.  a") = number_end (lit "10. a")); [|vm_compute in Z; discriminate Z].
  apply R; vm_compute; [left; reflexivity|]. do 9 right. left. reflexivity.
Qed.
Print Assumptions C54_pad_refuted.
(** Both shapes exist: [right_aligned] holds of the documented one. *)
Example C54_witness : right_aligned [lit "  1. a"; lit "  9. a"; lit " 10. a"]
  /\ only_in Pad default_options (changed54 Pad) /\ ordered_list_pad (changed54 Pad) = PadEnd.
Proof.
  split; [|split; [split; intros; try reflexivity; contradiction|reflexivity]].
  intros x y [<-|[<-|[<-|[]]]] [<-|[<-|[<-|[]]]]; reflexivity.
Qed.
