(** C46 for prose: no condition on what is written. *)
From Coq Require Import Bool Arith NArith ZArith Lia ZifyBool ZifyNat ZifyN String List.
From Verif Require Import Base BaseFacts EscapeModel OptsModel PunctModel WrapModel CodeModel TableModel HeadingModel
  AstModel StateModel InlineModel SpecInline SpecText EscapeProof TextProof SpecEmph EmphProof
  PropsState PropsText EmphDoc ProseProof PropsEmph.
Import ListNotations.

(** C46 for trees of text, code, line endings, emphasis, links, images, footnote
    references and inline HTML in their source, in which no text has a bracket
    or a '<', emphasis begins after white space or punctuation and ends before
    it, neither begins nor ends with white space or with emphasis, and is in no
    emphasis of the same strength; no link is in a link, the URLs that are
    written with their links read as they are, and the texts of links that keep
    their label are text and code ([proses]): they read back, whatever the
    options and the marks of the source are.  [space] and [punct] are any
    classification in which the ASCII punctuation is punctuation, spaces and line
    endings are white space, and nothing is both; [defs] has the references that
    are used (that their definitions are written is C25). *)
Theorem C46_prose_reads_back : forall U ENT o src space punct defs notes raw n out evs,
  (forall n m, ENT n = Some m -> n <> [] /\ forallb is_ascii_alnum n = true) ->
  (forall c r, gap c = true -> raw (c :: r) = None) ->
  (forall c, is_ascii_punct c = true -> punct c = true) -> (forall c, gap c = true -> space c = true) ->
  (forall c, punct c = true -> space c = false) ->
  Forall (emphatic U ENT o src false) (node_children n) -> apart (node_children n) ->
  proses U ENT o src space punct defs notes raw false false [] true (node_children n) true ->
  inline_content U ENT o src n = Ok (out, evs) ->
  (forall r, In (EvUse r) evs -> defined defs (ref_label r) = Some (ref_url r, ref_title r)) ->
  exists xs, Forall2 (says U o) (node_children n) xs
    /\ read_inlines ENT space punct defs notes raw out = List.concat xs.
Proof.
  intros U ENT o src space punct defs notes raw n out evs N G P1 P2 P3 E A P H D.
  destruct (C46_inlines_read_back_partial U ENT o src space punct defs notes raw n out evs N G E A H) as [(ls & F & J & S0) R].
  apply (R ls F S0). exact (prose_placed U ENT o src space punct defs notes raw false _ D P1 P2 P3 _ ls F J P).
Qed.
Print Assumptions C46_prose_reads_back.

Lemma space46_gap : forall c, gap c = true -> space46 c = true.
Proof.
  intros c H. unfold gap, space46 in *. change Base.c_nul with c_nul in *. cbn [existsb].
  destruct (ceq c c_sp), (ceq c c_nl), (ceq c c_nul), (ceq c c_tab), (ceq c c_cr); try discriminate H; reflexivity.
Qed.
Lemma punct46 : forall c, is_ascii_punct c = true -> space46 c = false.
Proof.
  intros c H. destruct (space46 c) eqn:E; [|reflexivity]. unfold space46 in E. apply existsb_exists in E. destruct E as (x & I & E).
  apply ceq_true in E. subst x. cbn [In] in I. repeat (destruct I as [<-|I]; [vm_compute in H; discriminate H|]). destruct I.
Qed.
Definition src46p : list str :=
  [lit "*An* example: __bold *and* `code`__, a \*star (_odd_)."].
Definition para46p : node :=
  nd46 NParagraph 1 54
    [nd46 NEmph 1 4 [t46 "An" 2 3]; t46 " example: " 5 14;
     nd46 NStrong 15 35 [t46 "bold " 17 21; nd46 NEmph 22 26 [t46 "and" 23 25]; t46 " " 27 27; nd46 (NCode (lit "code")) 28 33 []];
     t46 ", a *star (" 36 47; nd46 NEmph 48 52 [t46 "odd" 49 51]; t46 ")." 53 54].
Ltac in_source s :=
  split; [discriminate|]; split; [not_in|]; exists (lit s); split; [vm_compute; reflexivity|]; split; [vm_compute; reflexivity|];
  first [solve [left; split; not_in]
        |right; split; [vm_compute; reflexivity|]; split; [vm_compute; repeat constructor|];
         split; [vm_compute; repeat split; intros [? ?]; discriminate|vm_compute; repeat constructor]].
Ltac words_ok := vm_compute; repeat (apply Forall_cons; [repeat split; discriminate|]); apply Forall_nil.
(** [prose], node by node. *)
Ltac flat_ok := repeat (apply Forall_cons; [first [exact Logic.I|words_ok]|]); apply Forall_nil.
Lemma unlabelled_check : forall image k source,
  (let inside := firstn k (skipn (List.length (opening_bracket image)) source) in
   seqb source (opening_bracket image ++ inside ++ [c_rbr; c_lpar] ++ skipn (List.length (opening_bracket image) + k + 2) source) = true
   /\ level 0 inside = Some 0) -> unlabelled source.
Proof. intros image k source [A B]. right. apply seqb_true in A. exists image. eexists. eexists. split; [exact A|exact B]. Qed.
Ltac unlabelled_ok := split; [reflexivity|]; eexists; split; [vm_compute; reflexivity|];
  match goal with |- unlabelled ?s =>
    let image := eval vm_compute in (starts_with [c_bang] s) in
    let k := eval vm_compute in (match closing_bracket Z0 (if image then skipn 1 s else s) with Some k => k - 1 | None => 0 end) in
    apply (unlabelled_check image k); vm_compute; split; reflexivity
  end.
Lemma angle_inner : forall html s, html = [c_lt] ++ s ++ [c_gt] -> s = removelast (tl html).
Proof. intros html s ->. cbn [app tl]. symmetry. apply removelast_last. Qed.
Ltac link_ok :=
  split; [vm_compute; reflexivity|]; split; [vm_compute; discriminate|];
  split; [let s := fresh in let E := fresh in let I := fresh in intros (s & E & I); vm_compute in E; injection E as <-; revert I; not_in|];
  split; [first [intros _; split; [vm_compute; repeat split; discriminate|vm_compute; intros; repeat split; reflexivity]
                |let K := fresh in intros [K|[K|K]]; vm_compute in K; discriminate K]|];
  split; [first [discriminate|intros _ _ _ ?; reflexivity|intros _ _; discriminate|intros _; discriminate]|].
Ltac prose_ok :=
  lazymatch goal with
  | |- prose _ _ _ _ _ _ _ _ _ _ _ _ (Node (NText _) _ _) _ _ _ => split; [words_ok|vm_compute; first [discriminate|reflexivity]]
  | |- prose _ _ _ _ _ _ _ _ _ _ _ _ (Node NEmph _ _) _ _ _ =>
      split; [vm_compute; reflexivity|]; split; [vm_compute; reflexivity|]; split; [not_in|];
      split; [vm_compute; reflexivity|]; split; [vm_compute; reflexivity|]; proses_ok
  | |- prose _ _ _ _ _ _ _ _ _ _ _ _ (Node NStrong _ _) _ _ _ =>
      split; [vm_compute; reflexivity|]; split; [vm_compute; reflexivity|]; split; [not_in|];
      split; [vm_compute; reflexivity|]; split; [vm_compute; reflexivity|]; proses_ok
  | |- prose _ _ _ _ _ _ _ _ _ _ _ _ (Node (NLink _ _) _ _) _ _ _ =>
      split; [reflexivity|]; split; [link_ok; first [left; flat_ok|right; unlabelled_ok]|proses_ok]
  | |- prose _ _ _ _ _ _ _ _ _ _ _ _ (Node (NImage _ _) _ _) _ _ _ =>
      split; [link_ok; first [left; flat_ok|right; unlabelled_ok]|proses_ok]
  | |- prose _ _ _ _ _ _ _ _ _ _ _ _ (Node (NHtmlInline _) _ _) _ _ _ =>
      let s := fresh in let E := fresh in intros s E; apply angle_inner in E; vm_compute in E; subst s;
      right; intro; split; reflexivity
  | |- prose _ _ _ _ _ _ _ _ _ _ _ _ (Node (NFootnoteReference _) _ _) _ _ _ =>
      split; [reflexivity|]; split; [reflexivity|]; split; [vm_compute; reflexivity|]; split; [vm_compute; reflexivity|];
      vm_compute; repeat (apply Forall_cons; [reflexivity|]); apply Forall_nil
  | |- _ => exact Logic.I
  end
with proses_ok := cbn [node_children]; tryif exact Logic.I then idtac else (split; [prose_ok|proses_ok]).
Example C46_prose_example :
  (exists evs, inline_content uni_ascii ent42 default_options src46p para46p
    = Ok (lit "*An* example: __bold *and* `code`__, a \*star (_odd_).", evs))
  /\ Forall (emphatic uni_ascii ent42 default_options src46p false) (node_children para46p)
  /\ apart (node_children para46p)
  /\ proses uni_ascii ent42 default_options src46p space46 is_ascii_punct (among []) notes46 raw46 false false [] true (node_children para46p) true
  /\ flat_map show (read_with [] (lit "*An* example: __bold *and* `code`__, a \*star (_odd_)."))
     = lit "<em>An</em> example: <strong>bold <em>and</em> <code>code</code></strong>, a *star (<em>odd</em>).".
Proof.
  split; [eexists; vm_compute; reflexivity|]. split.
  { cbn [para46p node_children nd46 t46].
    apply Forall_cons; [split; [split; exact Logic.I|split; [in_source "An"%string|exact Logic.I]]|].
    apply Forall_cons; [in_source " example: "%string|].
    apply Forall_cons.
    { split; [cbn; repeat split|]. split; [in_source "bold "%string|].
      split; [split; [split; exact Logic.I|split; [in_source "and"%string|exact Logic.I]]|].
      split; [in_source " "%string|]. split; [|exact Logic.I]. split; [not_in|].
      exists (lit "`code`"). split; [vm_compute; reflexivity|]. split; [vm_compute; reflexivity|]. not_in. }
    apply Forall_cons; [in_source ", a \*star ("%string|].
    apply Forall_cons; [split; [split; exact Logic.I|split; [in_source "odd"%string|exact Logic.I]]|].
    apply Forall_cons; [in_source ")."%string|apply Forall_nil]. }
  split; [cbn; repeat split|]. split; [|vm_compute; reflexivity]. unfold para46p, t46, nd46. proses_ok.
Qed.

(** With every kind of link; the references that are used are [text] and [r]. *)
Definition src46q : list str :=
  [lit "See [the _docs_](guide.md ""Guide""), [text](https://a.b), [item][r], <https://c.d>, ![logo](l.png), x<br>y[^1]."].
Definition para46q : node :=
  nd46 NParagraph 1 110
    [t46 "See " 1 4;
     nd46 (NLink (lit "guide.md") (lit "Guide")) 5 34 [t46 "the " 6 9; nd46 NEmph 10 15 [t46 "docs" 11 14]];
     t46 ", " 35 36; nd46 (NLink (lit "https://a.b") []) 37 55 [t46 "text" 38 41];
     t46 ", " 56 57; nd46 (NLink (lit "/r") []) 58 66 [t46 "item" 59 62];
     t46 ", " 67 68; nd46 (NLink (lit "https://c.d") []) 69 81 [t46 "https://c.d" 70 80];
     t46 ", " 82 83; nd46 (NImage (lit "l.png") []) 84 97 [t46 "logo" 86 89];
     t46 ", x" 98 100; nd46 (NHtmlInline (lit "<br>")) 101 104 []; t46 "y" 105 105;
     nd46 (NFootnoteReference (lit "1")) 106 109 []; t46 "." 110 110].
Lemma emphatic46q : Forall (emphatic uni_ascii ent42 default_options src46q false) (node_children para46q).
Proof.
  cbn [para46q node_children nd46 t46].
  apply Forall_cons; [text_ok "See "%string|].
  apply Forall_cons.
  { split; [not_in|]. split; [not_in|]. eexists. split; [vm_compute; reflexivity|]. split; [not_in|].
    right. right. split; [|split; [|discriminate]].
    - right. exists false, (lit "the _docs_"), (lit "guide.md ""Guide"")"). split; vm_compute; reflexivity.
    - split; [cbn; repeat split|]. split; [text_ok "the "%string|]. split; [|exact Logic.I].
      split; [cbn; repeat split|]. split; [text_ok "docs"%string|exact Logic.I]. }
  apply Forall_cons; [text_ok ", "%string|].
  apply Forall_cons.
  { split; [not_in|]. split; [not_in|]. eexists. split; [vm_compute; reflexivity|]. split; [not_in|].
    right. right. split; [|split; [|discriminate]].
    - right. exists false, (lit "text"), (lit "https://a.b)"). split; vm_compute; reflexivity.
    - split; [cbn; repeat split|]. split; [text_ok "text"%string|exact Logic.I]. }
  apply Forall_cons; [text_ok ", "%string|].
  apply Forall_cons.
  { split; [not_in|]. split; [not_in|]. eexists. split; [vm_compute; reflexivity|]. split; [not_in|].
    left. exists (lit "item"). split; [exists (lit "[r]"); split; [vm_compute; reflexivity|split; [vm_compute; reflexivity|discriminate]]|].
    split; [left; reflexivity|]. exists [P46 "item"].
    split; [|split; vm_compute; reflexivity].
    split; [|exact Logic.I]. split; [|intros c K; injection K as <-; reflexivity].
    split; [vm_compute; reflexivity|]. intros c K [I|[I|[I|[I|[]]]]]; injection I as <-; discriminate K. }
  apply Forall_cons; [text_ok ", "%string|].
  apply Forall_cons.
  { split; [not_in|]. split; [not_in|]. eexists. split; [vm_compute; reflexivity|]. split; [not_in|].
    right. right. split; [left; not_in|]. split; [|reflexivity].
    split; [cbn; repeat split|]. split; [text_ok "https://c.d"%string|exact Logic.I]. }
  apply Forall_cons; [text_ok ", "%string|].
  apply Forall_cons.
  { split; [not_in|]. split; [not_in|]. eexists. split; [vm_compute; reflexivity|]. split; [not_in|].
    right. right. split; [|split; [|discriminate]].
    - right. exists true, (lit "logo"), (lit "l.png)"). split; vm_compute; reflexivity.
    - split; [cbn; repeat split|]. split; [text_ok "logo"%string|exact Logic.I]. }
  apply Forall_cons; [text_ok ", x"%string|].
  apply Forall_cons; [split; [reflexivity|]; split; [not_in|]; exists (lit "br"); reflexivity|].
  apply Forall_cons; [text_ok "y"%string|].
  apply Forall_cons; [split; [reflexivity|not_in]|].
  apply Forall_cons; [text_ok "."%string|apply Forall_nil].
Qed.
Example C46_prose_links_example :
  let out := lit "See [the _docs_](guide.md ""Guide""), [text], [item][r], <https://c.d>, ![logo](l.png), x<br>y[^1]." in
  inline_content uni_ascii ent42 default_options src46q para46q
    = Ok (out, [EvUse (mkRef (lit "text") (lit "https://a.b") []); EvUse (mkRef (lit "r") (lit "/r") [])])
  /\ Forall (emphatic uni_ascii ent42 default_options src46q false) (node_children para46q)
  /\ apart (node_children para46q)
  /\ proses uni_ascii ent42 default_options src46q space46 is_ascii_punct (among defs46l) notes46 raw46 false false [] true (node_children para46q) true
  /\ flat_map show (read_with defs46l out)
     = lit ("See <a href='guide.md' title='Guide'>the <em>docs</em></a>, <a href='https://a.b'>text</a>, " ++
            "<a href='/r'>item</a>, <a href='https://c.d'>https://c.d</a>, <img src='l.png' alt='logo'>, x<br>y{1}.").
Proof.
  intro out. split; [vm_compute; reflexivity|]. split; [exact emphatic46q|]. split; [cbn; repeat split|]. split; [|vm_compute; reflexivity].
  unfold para46q, t46, nd46. proses_ok.
Qed.
