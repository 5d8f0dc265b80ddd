(** A build without overflow checks does what a build with them does, unless
    that panics (C64). *)
From Coq Require Import Bool Arith NArith Lia ZifyBool ZifyNat ZifyN String List.
From Verif Require Import Base BaseFacts OptsModel PunctModel WrapModel CodeModel TableModel HeadingModel AstModel StateModel
  InlineModel WarnModel SerModel StateProof SerFacts.
Import ListNotations.

(** The first panics, or they are the same. *)
Definition upto {A} (x y : res A) : Prop := x = Panic \/ x = y.
Lemma upto_refl : forall A (x : res A), upto x x. Proof. intros. right. reflexivity. Qed.
Lemma upto_bind : forall A C (x y : res A) (f g : A -> res C), upto x y -> (forall v, upto (f v) (g v)) -> upto (rbind x f) (rbind y g).
Proof. intros A C x y f g [-> | ->] F; [left; reflexivity|]. destruct y as [v|]; [apply F|apply upto_refl]. Qed.

Definition tame (x y : act) : Prop := forall s, upto (x s) (y s).
Lemma tame_refl : forall x, tame x x. Proof. intros x s. apply upto_refl. Qed.
Lemma tame_seq : forall x x' y y', tame x x' -> tame y y' -> tame (x ;; y) (x' ;; y').
Proof. intros x x' y y' X Y s. unfold seqa. destruct (X s) as [E|E]; rewrite E; [left; reflexivity|]. destruct (x' s) as [s'|]; [apply Y|right; reflexivity]. Qed.
Lemma tame_get : forall A (f : st -> A) k k', (forall v, tame (k v) (k' v)) -> tame (get f k) (get f k').
Proof. intros A f k k' G s. apply G. Qed.
Lemma tame_all : forall A (f g : A -> act) l, (forall v, tame (f v) (g v)) -> tame (all (map f l)) (all (map g l)).
Proof.
  intros A f g l F. induction l as [|v l IH]; [apply tame_refl|]. cbn [map]. intro s. rewrite !all_cons. revert s. apply tame_seq; [apply F|exact IH].
Qed.
Ltac tm := repeat first [assumption | apply tame_refl | apply tame_seq | apply tame_get; intro].

Section Build.
Variable U : Uni.
Variable PN : list (str * str).
Variable ENT : str -> option str.
Variable o : Options.
Variable B : backend.
Variable src : list str.
Variable ends_nl : bool.
Notation sera := (serialize U PN ENT o B src ends_nl true).
Notation serb := (serialize U PN ENT o B src ends_nl false).

Lemma tame_sub : forall x y, upto (sub_usize true x y) (sub_usize false x y).
Proof. intros x y. unfold sub_usize. destruct (y <=? x); [right|left]; reflexivity. Qed.
Lemma tame_write : forall f, tame (write_footnote U o true f) (write_footnote U o false f).
Proof.
  intro f. assert (T : upto (footnote_text U o true f) (footnote_text U o false f)).
  { unfold footnote_text. destruct (fn_has_blocks f); [apply upto_refl|]. repeat (apply upto_bind; [apply tame_sub|intro]). apply upto_refl. }
  unfold write_footnote. destruct T as [-> | ->]; [intro s; left; reflexivity|apply tame_refl].
Qed.
Lemma tame_flush : forall before, tame (flush_all U o true before) (flush_all U o false before).
Proof.
  intro bf. unfold flush_all. apply tame_seq; [|apply tame_refl]. unfold flush_footnotes_before. apply tame_get. intro f.
  destruct (is_nil (f_pending f)); [apply tame_refl|]. cbv zeta. apply tame_seq; [apply tame_refl|].
  match goal with |- tame (if ?c then _ else _) _ => destruct c end; [apply tame_refl|]. apply tame_seq; [apply tame_refl|].
  apply tame_all. exact tame_write.
Qed.
Lemma tame_directive : forall prev n l d, tame (directive_act U o true prev n l d) (directive_act U o false prev n l d).
Proof.
  intros prev n l d. unfold directive_act. cbv zeta. destruct d; try apply tame_refl;
    (apply tame_seq; [apply tame_flush|apply tame_refl]).
Qed.
Lemma tame_disable : forall n l, tame (disable_file U o src ends_nl true n l) (disable_file U o src ends_nl false n l).
Proof. intros n l. unfold disable_file. apply tame_seq; [apply tame_flush|apply tame_refl]. Qed.
Lemma tame_undefined : forall n, upto (check_undefined true src n) (check_undefined false src n).
Proof.
  intro n. unfold check_undefined. destruct (is_nil src); [apply upto_refl|]. apply upto_bind; [|intro; apply upto_refl].
  induction (node_children n) as [|c cs IH]; [apply upto_refl|]. cbn [disabled_ranges]. apply upto_bind; [|intro; apply upto_bind; [exact IH|intro; apply upto_refl]].
  assert (E : forall p rest, upto (end_before true p rest) (end_before false p rest)).
  { intros p rest. unfold end_before. destruct (find p rest) as [m|]; [|apply upto_refl]. unfold line_before.
    destruct (start_line (node_pos m)); [left; reflexivity|apply upto_refl]. }
  unfold directive_ranges. destruct (directive_of c) as [d|]; [|apply upto_refl].
  destruct d; try apply upto_refl; (apply upto_bind; [apply E|intro; apply upto_refl]).
Qed.

Definition kin (k l : kids) : Prop := Forall2 (fun x y => fst x = fst y /\ tame (snd x) (snd y)) k l.
Lemma kin_kids : forall cs, Forall (fun c => forall next, tame (sera next c) (serb next c)) cs ->
  kin (combine cs (with_next sera cs)) (combine cs (with_next serb cs)).
Proof.
  intros cs F. induction F as [|c cs Hc F IH]; [constructor|]. cbn [with_next combine]. constructor; [|exact IH]. split; [reflexivity|apply Hc].
Qed.
Lemma kin_fst : forall k l, kin k l -> map fst k = map fst l.
Proof. intros k l K. induction K as [|x y k l (E & _) K IH]; [reflexivity|]. cbn [map]. rewrite E, IH. reflexivity. Qed.
Lemma kin_children : forall k l, kin k l -> tame (children_acts k) (children_acts l).
Proof.
  intros k l K. induction K as [|x y k l (_ & A) K IH]; [apply tame_refl|].
  change (tame (snd x ;; children_acts k) (snd y ;; children_acts l)). apply tame_seq; assumption.
Qed.
Lemma kin_quote : forall k l, kin k l -> forall indent prefix first, tame (blockquote_children indent prefix first k) (blockquote_children indent prefix first l).
Proof. intros k l K. induction K as [|[n x] [m y] k l (_ & A) K IH]; intros indent prefix first; [apply tame_refl|]. cbn [blockquote_children]. tm. apply IH. Qed.
Lemma kin_block_quote : forall k l, kin k l -> tame (block_quote k) (block_quote l).
Proof. intros k l K. unfold block_quote. tm. apply kin_quote. exact K. Qed.
Lemma kin_alert : forall k l t p, kin k l -> tame (alert t p k) (alert t p l).
Proof.
  intros k l t p K. unfold alert. apply tame_get. intro c. apply tame_seq; [apply tame_refl|]. apply tame_seq; [|apply kin_block_quote; exact K].
  destruct K as [|[n x] [m y] k l (E & _) K]; [apply tame_refl|]. cbn [fst] in E. subst m. apply tame_refl.
Qed.
Lemma kin_list : forall kind tight k l, kin k l -> tame (list_block kind tight k) (list_block kind tight l).
Proof. intros kind tight k l K. unfold list_block. rewrite <- (kin_fst _ _ K). tm. apply kin_children. exact K. Qed.
Lemma kin_item_children : forall k l, kin k l -> forall base prev, tame (item_children o B base prev k) (item_children o B base prev l).
Proof.
  intros k l K. induction K as [|[n x] [m y] k l (E & A) K IH]; intros base prev; [apply tame_refl|]. cbn [item_children fst snd] in *. subst m. cbv zeta.
  apply tame_seq; [|apply IH]. destruct (node_value n) eqn:V; tm.
Qed.
Lemma last_kin : forall k l, kin k l -> last_child k = last_child l.
Proof.
  intros k l K. induction K as [|[n x] [m y] k l (E & _) K IH]; [reflexivity|]. cbn [fst] in E. subst m. cbn [last_child].
  destruct K as [|x' y' k l ? K]; [reflexivity|exact IH].
Qed.
Lemma kin_item : forall task k l, kin k l -> tame (list_item o B task k) (list_item o B task l).
Proof.
  intros task k l K. unfold list_item. rewrite <- (last_kin _ _ K). apply tame_seq; [apply tame_refl|].
  apply tame_get. intro c. apply tame_seq; [apply tame_refl|]. destruct (item_base_indent o c); [|apply tame_refl].
  apply tame_seq; [apply tame_refl|]. apply tame_seq; [apply kin_item_children; assumption|apply tame_refl].
Qed.
Lemma kin_details_children : forall k l, kin k l -> forall quote first,
  tame (details_children U ENT o B src quote first k) (details_children U ENT o B src quote first l).
Proof.
  intros k l K. induction K as [|[n x] [m y] k l (E & A) K IH]; intros quote first; [apply tame_refl|]. cbn [details_children fst snd] in *. subst m.
  apply tame_seq; [|apply IH].
  destruct first; [|apply tame_seq; [apply tame_refl|]]; (destruct (node_value n) eqn:V; unfold with_item_indent; solve [tm]).
Qed.
Lemma kin_details : forall k l, kin k l -> tame (description_details U ENT o B src k) (description_details U ENT o B src l).
Proof. intros k l K. unfold description_details. tm. apply kin_details_children; assumption. Qed.
Lemma kin_description_list : forall k l, kin k l -> forall first, tame (description_list first k) (description_list first l).
Proof. intros k l K. induction K as [|[n x] [m y] k l (_ & A) K IH]; intros first; [apply tame_refl|]. cbn [description_list]. tm. apply IH. Qed.
Lemma kin_blocks : forall k l f, kin k l -> forall result first, tame (footnote_blocks result first k f) (footnote_blocks result first l f).
Proof.
  intros k l f K. induction K as [|[n x] [m y] k l (_ & A) K IH]; intros result first; [apply tame_refl|]. cbn [footnote_blocks].
  unfold single_block. cbn [snd] in A. apply tame_get. intro old. apply tame_seq; [apply tame_refl|]. apply tame_seq; [exact A|].
  apply tame_get. intro out. apply tame_seq; [apply tame_refl|apply IH].
Qed.
Lemma kin_note : forall name cs k l, kin k l -> tame (footnote_definition U ENT o src name cs k) (footnote_definition U ENT o src name cs l).
Proof.
  intros name cs k l K. unfold footnote_definition. apply tame_get. intro line. cbv zeta. apply tame_seq; [apply tame_refl|].
  destruct (footnote_has_blocks cs); [apply kin_blocks; exact K|apply tame_refl].
Qed.
Lemma kin_link : forall next n url title k l, kin k l -> tame (link U ENT o src next n url title k) (link U ENT o src next n url title l).
Proof.
  intros next n url title k l K. unfold link. rewrite <- (kin_fst _ _ K). cbv zeta. pose proof (kin_children _ _ K) as Kc.
  destruct (reference_style_of src (node_pos n)) as [[[text label]|]|]; [..|apply tame_refl];
    (destruct (existsb is_image (map fst k)); [tm|apply tame_refl]).
Qed.
Lemma kin_block : forall prev n x y, tame x y -> tame (document_block U o src true prev n x) (document_block U o src false prev n y).
Proof.
  intros prev n x y A. unfold document_block. apply tame_seq.
  { destruct (heading_level n) as [[|[|[|[|h]]]]|]; try apply tame_refl; (destruct prev; [apply tame_flush|apply tame_refl]). }
  apply tame_seq; [apply tame_refl|]. apply tame_get. intro m. cbv zeta.
  assert (A' : tame (match extract_source src (node_pos n) with Panic => panic | Ok (Some source) => emit (source ++ [c_nl]) | Ok None => x end)
    (match extract_source src (node_pos n) with Panic => panic | Ok (Some source) => emit (source ++ [c_nl]) | Ok None => y end)).
  { destruct (extract_source src (node_pos n)) as [[source|]|]; [apply tame_refl|exact A|apply tame_refl]. }
  destruct m; try assumption; [tm|]. destruct (is_section_heading n); [tm|exact A'].
Qed.
Lemma kin_loop : forall k l, kin k l -> forall ts prev fin fin', tame fin fin' ->
  tame (document_loop U o src ends_nl true ts prev k fin) (document_loop U o src ends_nl false ts prev l fin').
Proof.
  intros k l K. induction K as [|[n x] [m y] k l (E & A) K IH]; intros ts prev fin fin' F; [exact F|]. cbn [fst snd] in *. subst m.
  cbn [document_loop]. cbv zeta.
  assert (R : tame (document_loop U o src ends_nl true (ts - 1) (Some n) k fin) (document_loop U o src ends_nl false (ts - 1) (Some n) l fin')) by (apply IH; exact F).
  destruct ((ts =? 0) && is_html_block n); [exact R|]. destruct (is_footnote_def n); [exact R|].
  pose proof (tame_seq _ _ _ _ (kin_block prev n x y A) R) as D.
  destruct (node_value n) eqn:V; try exact D. destruct (directive_of n) as [d|]; [|exact D].
  destruct d; try (apply tame_seq; [apply tame_directive|exact R]). apply tame_disable.
Qed.
Lemma kin_notes : forall k l, kin k l ->
  tame (all (map (fun ca => if is_footnote_def (fst ca) then snd ca else nop) k)) (all (map (fun ca => if is_footnote_def (fst ca) then snd ca else nop) l)).
Proof.
  intros k l K. induction K as [|[n x] [m y] k l (E & A) K IH]; [apply tame_refl|]. cbn [map fst snd] in *. subst m.
  intro s. rewrite !all_cons. revert s. apply tame_seq; [|exact IH]. destruct (is_footnote_def n); [exact A|apply tame_refl].
Qed.
Lemma kin_document : forall n k l, kin k l -> tame (document U o src ends_nl true n k) (document U o src ends_nl false n l).
Proof.
  intros n k l K. unfold document. rewrite <- (kin_fst _ _ K). cbv zeta. destruct (tame_undefined n) as [-> | ->]; [intro s; left; reflexivity|].
  destruct (check_undefined false src n) as [ws|]; [|apply tame_refl].
  repeat (apply tame_seq; [first [apply kin_notes; exact K|apply tame_refl]|]). apply kin_loop; [exact K|].
  apply tame_seq; [apply tame_flush|apply tame_refl].
Qed.

Theorem tame_serialize : forall n next, tame (sera next n) (serb next n).
Proof.
  induction n as [v p cs IH] using node_ind'. intro next.
  pose proof (kin_kids cs IH) as K. pose proof (kin_children _ _ K) as Kc.
  destruct v; cbn [serialize]; cbv zeta; try apply tame_refl.
  all: try (apply kin_document; exact K).
  all: try (apply kin_description_list; exact K).
  all: try (apply kin_block_quote; exact K).
  all: try (apply kin_alert; exact K).
  all: try (apply kin_list; exact K).
  all: try (apply kin_item; assumption).
  all: try (apply kin_details; assumption).
  all: try (apply kin_note; assumption).
  all: try (apply kin_link; assumption).
  all: tm.
Qed.
End Build.
