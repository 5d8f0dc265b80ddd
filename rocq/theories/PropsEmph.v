(** C46: inline content reads back: emphasis as emphasis, links as links. *)
From Coq Require Import Bool Arith NArith Lia ZifyBool ZifyNat ZifyN String List.
From Verif Require Import Base BaseFacts EscapeModel OptsModel PunctModel WrapModel CodeModel TableModel HeadingModel
  AstModel StateModel InlineModel WarnModel SerModel SpecInline SpecText EscapeProof TextProof SpecEmph EmphProof
  PropsState PropsText SpecRefs EmphDoc.
Import ListNotations.

(** ** The reader: examples of the CommonMark document, sections 6.2 to 6.5
    (with other words where an example has definitions of its own) *)
Definition space46 (c : char) : bool := existsb (ceq c) [c_sp; c_nl; c_cr; c_tab; c_nul].
Definition lower46 (c : char) : char := if ((65 <=? c) && (c <=? 90))%N then (c + 32)%N else c.
Definition among (ds : list (string * (string * string))) (l : str) : option (str * str) :=
  match find (fun d => seqb (lit (fst d)) (map lower46 l)) ds with
  | Some d => Some (lit (fst (snd d)), lit (snd (snd d)))
  | None => None
  end.
Definition notes46 (name : str) : bool := seqb name (lit "1").
(** Tags: a letter or a slash after the angle bracket. *)
Definition raw46 (s : str) : option (inl * nat) :=
  let t := take_while (fun c => negb (ceq c c_gt)) s in
  match t, skipn (List.length t) s with
  | c :: _, _ :: _ =>
      if (is_ascii_alnum c || ceq c c_slash) && negb (contains_char c_bs t) then Some (Raw ([c_lt] ++ t ++ [c_gt]), S (List.length t)) else None
  | _, _ => None
  end.
Lemma raw46_gap : forall c r, gap c = true -> raw46 (c :: r) = None.
Proof.
  intros c r H. unfold raw46. cbn [take_while]. destruct (negb (ceq c c_gt)); [|reflexivity].
  destruct (skipn _ _); [reflexivity|]. unfold gap in H.
  repeat (apply orb_true_iff in H; destruct H as [H|H]); apply ceq_true in H; subst c; reflexivity.
Qed.
Definition read_with (ds : list (string * (string * string))) : str -> list inl :=
  read_inlines ent42 space46 is_ascii_punct (among ds) notes46 raw46.
Definition defs46 : list (string * (string * string)) :=
  [("foo", ("/url", "title")); ("bar", ("/url1", "")); ("ref", ("/uri", "")); ("ref\[", ("/uri", ""));
   ("baz", ("/url2", "")); ("*foo* bar", ("/url", "title")); ("foo*", ("/url", ""))]%string.
Fixpoint alt (i : inl) : str :=
  match i with Chr c => [c] | Cod s => s | Em l | St l | Lnk _ l _ _ => flat_map alt l | Raw s => s | Fn s => s end.
Definition show_title (t : str) : str := if is_nil t then [] else lit " title='" ++ t ++ lit "'".
Fixpoint show (i : inl) : str :=
  match i with
  | Chr c => [c]
  | Cod s => lit "<code>" ++ s ++ lit "</code>"
  | Em l => lit "<em>" ++ flat_map show l ++ lit "</em>"
  | St l => lit "<strong>" ++ flat_map show l ++ lit "</strong>"
  | Lnk false l u t => lit "<a href='" ++ u ++ lit "'" ++ show_title t ++ lit ">" ++ flat_map show l ++ lit "</a>"
  | Lnk true l u t => lit "<img src='" ++ u ++ lit "' alt='" ++ flat_map alt l ++ lit "'" ++ show_title t ++ lit ">"
  | Raw s => s
  | Fn s => lit "{" ++ s ++ lit "}"
  end.
Definition shows (ds : list (string * (string * string))) (x : string * string) : bool :=
  seqb (flat_map show (read_with ds (lit (fst x)))) (lit (snd x)).
Example reader_examples : filter (fun x => negb (shows [] x)) [
  ("*foo bar*", "<em>foo bar</em>"); ("a * foo bar*", "a * foo bar*"); ("a*""foo""*", "a*""foo""*");
  ("*$*alpha.", "*$*alpha."); ("foo*bar*", "foo<em>bar</em>"); ("5*6*78", "5<em>6</em>78");
  ("_foo bar_", "<em>foo bar</em>"); ("_ foo bar_", "_ foo bar_"); ("a_""foo""_", "a_""foo""_");
  ("foo_bar_", "foo_bar_"); ("5_6_78", "5_6_78"); ("aa_""bb""_cc", "aa_""bb""_cc");
  ("foo-_(bar)_", "foo-<em>(bar)</em>"); ("_foo*", "_foo*"); ("*foo bar *", "*foo bar *"); ("*(*foo)", "*(*foo)");
  ("*(*foo*)*", "<em>(<em>foo</em>)</em>"); ("*foo*bar", "<em>foo</em>bar"); ("_foo bar _", "_foo bar _");
  ("_(_foo)", "_(_foo)"); ("_(_foo_)_", "<em>(<em>foo</em>)</em>"); ("_foo_bar", "_foo_bar");
  ("_foo_bar_baz_", "<em>foo_bar_baz</em>"); ("_(bar)_.", "<em>(bar)</em>."); ("**foo bar**", "<strong>foo bar</strong>");
  ("** foo bar**", "** foo bar**"); ("a**""foo""**", "a**""foo""**"); ("foo**bar**", "foo<strong>bar</strong>");
  ("__foo, __bar__, baz__", "<strong>foo, <strong>bar</strong>, baz</strong>");
  ("foo-__(bar)__", "foo-<strong>(bar)</strong>"); ("**foo bar **", "**foo bar **"); ("**(**foo)", "**(**foo)");
  ("*(**foo**)*", "<em>(<strong>foo</strong>)</em>"); ("**foo ""*bar*"" foo**", "<strong>foo ""<em>bar</em>"" foo</strong>");
  ("**foo**bar", "<strong>foo</strong>bar"); ("__foo__bar", "__foo__bar");
  ("__foo__bar__baz__", "<strong>foo__bar__baz</strong>"); ("__(bar)__.", "<strong>(bar)</strong>.");
  ("_foo __bar__ baz_", "<em>foo <strong>bar</strong> baz</em>"); ("_foo _bar_ baz_", "<em>foo <em>bar</em> baz</em>");
  ("__foo_ bar_", "<em><em>foo</em> bar</em>"); ("*foo *bar**", "<em>foo <em>bar</em></em>");
  ("*foo **bar** baz*", "<em>foo <strong>bar</strong> baz</em>"); ("*foo**bar**baz*", "<em>foo<strong>bar</strong>baz</em>");
  ("*foo**bar*", "<em>foo**bar</em>"); ("***foo** bar*", "<em><strong>foo</strong> bar</em>");
  ("*foo **bar***", "<em>foo <strong>bar</strong></em>"); ("*foo**bar***", "<em>foo<strong>bar</strong></em>");
  ("foo***bar***baz", "foo<em><strong>bar</strong></em>baz");
  ("foo******bar*********baz", "foo<strong><strong><strong>bar</strong></strong></strong>***baz");
  ("*foo **bar *baz* bim** bop*", "<em>foo <strong>bar <em>baz</em> bim</strong> bop</em>");
  ("** is not an empty emphasis", "** is not an empty emphasis"); ("foo ***", "foo ***"); ("foo *\**", "foo <em>*</em>");
  ("foo *_*", "foo <em>_</em>"); ("foo *****", "foo *****"); ("foo **\***", "foo <strong>*</strong>");
  ("foo **_**", "foo <strong>_</strong>"); ("**foo*", "*<em>foo</em>"); ("*foo**", "<em>foo</em>*");
  ("***foo**", "*<strong>foo</strong>"); ("****foo*", "***<em>foo</em>"); ("**foo***", "<strong>foo</strong>*");
  ("*foo****", "<em>foo</em>***"); ("*_foo_*", "<em><em>foo</em></em>"); ("_*foo*_", "<em><em>foo</em></em>");
  ("****foo****", "<strong><strong>foo</strong></strong>");
  ("______foo______", "<strong><strong><strong>foo</strong></strong></strong>");
  ("***foo***", "<em><strong>foo</strong></em>"); ("_____foo_____", "<em><strong><strong>foo</strong></strong></em>");
  ("*foo _bar* baz_", "<em>foo _bar</em> baz_");
  ("*foo __bar *baz bim__ bam*", "<em>foo <strong>bar *baz bim</strong> bam</em>");
  ("**foo **bar baz**", "**foo <strong>bar baz</strong>"); ("*foo *bar baz*", "*foo <em>bar baz</em>");
  ("*a `*`*", "<em>a <code>*</code></em>"); ("_a `_`_", "<em>a <code>_</code></em>");
  ("*foo`*`", "*foo<code>*</code>"); ("``foo ` bar``", "<code>foo ` bar</code>"); ("`foo", "`foo");
  ("`` foo`bar", "`` foo`bar"); ("\*foo*", "*foo*"); ("*a &lt; \_*", "<em>a < _</em>"); ("\`*a*`", "`<em>a</em>`")
  ]%string = [].
Proof. vm_compute. reflexivity. Qed.
Example link_examples : filter (fun x => negb (shows defs46 x)) [
  ("[link](/uri ""title"")", "<a href='/uri' title='title'>link</a>");
  ("[link](/uri)", "<a href='/uri'>link</a>");("[](./target.md)", "<a href='./target.md'></a>");
  ("[link]()", "<a href=''>link</a>");("[link](<>)", "<a href=''>link</a>");("[link](/my uri)", "[link](/my uri)");
  ("[link](</my uri>)", "<a href='/my uri'>link</a>");("[a](<b)c>)", "<a href='b)c'>a</a>");
  ("[link](<foo\>)", "[link](<foo>)");
  ("[link](\(foo\))", "<a href='(foo)'>link</a>");("[link](foo(and(bar)))", "<a href='foo(and(bar))'>link</a>");
  ("[link](foo(and(bar))", "[link](foo(and(bar))");("[link](foo\(and\(bar\))", "<a href='foo(and(bar)'>link</a>");
  ("[link](<foo(and(bar)>)", "<a href='foo(and(bar)'>link</a>");("[link](foo\)\:)", "<a href='foo):'>link</a>");
  ("[link](#fragment)", "<a href='#fragment'>link</a>");("[link](https://example.com?foo=3#frag)", "<a href='https://example.com?foo=3#frag'>link</a>");
  ("[link](foo\bar)", "<a href='foo\bar'>link</a>");("[link](""title"")", "<a href='""title""'>link</a>");
  ("[link](/url ""title"")", "<a href='/url' title='title'>link</a>");("[link](/url 'title')", "<a href='/url' title='title'>link</a>");
  ("[link](/url (title))", "<a href='/url' title='title'>link</a>");("[link](/url ""title \""&lt;"")", "<a href='/url' title='title ""<'>link</a>");
  ("[link](/url ""title ""and"" title"")", "[link](/url ""title ""and"" title"")");
  ("[link](/url 'title ""and"" title')", "<a href='/url' title='title ""and"" title'>link</a>");
  ("[link] (/uri)", "[link] (/uri)");("[link [foo [bax]]](/uri)", "<a href='/uri'>link [foo [bax]]</a>");
  ("[link] bar](/uri)", "[link] bar](/uri)");("[link [bax](/uri)", "[link <a href='/uri'>bax</a>");("[link \[bax](/uri)", "<a href='/uri'>link [bax</a>");
  ("[link *foo **bax** `#`*](/uri)", "<a href='/uri'>link <em>foo <strong>bax</strong> <code>#</code></em></a>");
  ("[![moon](moon.jpg)](/uri)", "<a href='/uri'><img src='moon.jpg' alt='moon'></a>");
  ("[foo [bax](/uri)](/uri)", "[foo <a href='/uri'>bax</a>](/uri)");
  ("[fob *[bax [baq](/uri)](/uri)*](/uri)", "[fob <em>[bax <a href='/uri'>baq</a>](/uri)</em>](/uri)");
  ("![[[fob](uri1)](uri2)](uri3)", "<img src='uri3' alt='[fob](uri2)'>");
  ("*[fob*](/uri)", "*<a href='/uri'>fob*</a>");("[fob *bax](baz*)", "<a href='baz*'>fob *bax</a>");("*fob [bax* baq]", "<em>fob [bax</em> baq]");
  ("[fob`](/uri)`", "[fob<code>](/uri)</code>");("[fob<https://example.com/?search=](uri)>", "[fob<a href='https://example.com/?search=](uri)'>https://example.com/?search=](uri)</a>");
  ("[fob <bax attr=](baz)>", "[fob <bax attr=](baz)>");
  ("[fob][bar]", "<a href='/url1'>fob</a>");("[link [fob [bax]]][ref]", "<a href='/uri'>link [fob [bax]]</a>");("[link \[bax][ref]", "<a href='/uri'>link [bax</a>");
  ("[fob [bax](/uri)][ref]", "[fob <a href='/uri'>bax</a>]<a href='/uri'>ref</a>");
  ("[fob *bax [baq][ref]*][ref]", "[fob <em>bax <a href='/uri'>baq</a></em>]<a href='/uri'>ref</a>");
  ("*[fob*][ref]", "*<a href='/uri'>fob*</a>");("[fob *bax][ref]*", "<a href='/uri'>fob *bax</a>*");("[fob`][ref]`", "[fob<code>][ref]</code>");
  ("[fob][BaR]", "<a href='/url1'>fob</a>");("[fob] [bar]", "[fob] <a href='/url1'>bar</a>");("[fob][ref\[]", "<a href='/uri'>fob</a>");
  ("[fob][ref[]", "[fob][ref[]");("[fob][ref[bax]]", "[fob][ref[bax]]");("[]", "[]");("[foo][]", "<a href='/url' title='title'>foo</a>");
  ("[*foo* bar][]", "<a href='/url' title='title'><em>foo</em> bar</a>");("[Foo][]", "<a href='/url' title='title'>Foo</a>");
  ("[foo] []", "<a href='/url' title='title'>foo</a> []");("[foo]", "<a href='/url' title='title'>foo</a>");
  ("[[*foo* bar]]", "[<a href='/url' title='title'><em>foo</em> bar</a>]");("[[bar [foo]", "[[bar <a href='/url' title='title'>foo</a>");
  ("[foo] bar", "<a href='/url' title='title'>foo</a> bar");("\[foo]", "[foo]");("*[foo*]", "*<a href='/url'>foo*</a>");("[foo][bar]", "<a href='/url1'>foo</a>");
  ("[foo]()", "<a href=''>foo</a>");("[foo](not a link)", "<a href='/url' title='title'>foo</a>(not a link)");
  ("[fob][bar][baz]", "<a href='/url1'>fob</a><a href='/url2'>baz</a>"); ("[fob][baq][baz]", "[fob]<a href='/url2'>baq</a>");
  ("![foo](/url ""title"")", "<img src='/url' alt='foo' title='title'>");("![foo *bar*](train.jpg)", "<img src='train.jpg' alt='foo bar'>");
  ("![fob ![bax](/url)](/url2)", "<img src='/url2' alt='fob bax'>");("![fob [bax](/url)](/url2)", "<img src='/url2' alt='fob bax'>");
  ("![](/url)", "<img src='/url' alt=''>");("![foo][bar]", "<img src='/url1' alt='foo'>");("![foo][]", "<img src='/url' alt='foo' title='title'>");
  ("![foo]", "<img src='/url' alt='foo' title='title'>");("![*foo* bar]", "<img src='/url' alt='foo bar' title='title'>");("![[foo]]", "![<a href='/url' title='title'>foo</a>]");
  ("!\[foo]", "![foo]");("\![foo]", "!<a href='/url' title='title'>foo</a>");
  ("<https://foo.bar.baz>", "<a href='https://foo.bar.baz'>https://foo.bar.baz</a>");("<https://foo.bar/ baz>", "<https://foo.bar/ baz>");("<m:abc>", "<m:abc>");
  ("<made-up-scheme://foo,bar>", "<a href='made-up-scheme://foo,bar'>made-up-scheme://foo,bar</a>");
  ("< https://foo.bar >", "< https://foo.bar >"); ("a [^1] b [^2] [^1][^1]", "a {1} b [^2] {1}{1}"); ("**a [b** c](u)", "**a <a href='u'>b** c</a>"); ("[a](u)**b**", "<a href='u'>a</a><strong>b</strong>")
  ]%string = [].
Proof. vm_compute. reflexivity. Qed.

(** ** C46 *)

(** C46: for text, code, line endings, inline HTML, footnote references, and
    emphasis, links and images nested in any way, all in the source (texts and
    code spans read as they are, as in C42; the text of a link that keeps its
    label reads as its content): what is written is a layout of the same tree,
    the marks following the rule of C38; and if in what is written every mark
    stands where CommonMark lets it open or close, next to no equal character,
    an opening mark that could also close is not inside a mark of its kind, no
    text has a bracket that is not escaped, and the links are links to where
    they lead ([placed]), then what is written reads as the tree with its
    punctuation converted: no emphasis and no link is lost, gained or moved,
    and no character of the text is read as a mark.  [space] and [punct] are
    Unicode whitespace and punctuation, [defs] the link definitions, [notes] the
    footnotes, [raw] recognises HTML.  [_partial]: the conditions of [placed]
    are needed (below), and what follows from the options and the tree alone
    is not all of it. *)
Theorem C46_inlines_read_back_partial : forall U ENT o src space punct defs notes raw n out evs,
  (forall n m, ENT n = Some m -> n <> [] /\ forallb is_ascii_alnum n = true) ->
  (forall c r, gap c = true -> raw (c :: r) = None) ->
  Forall (emphatic U ENT o src false) (node_children n) -> apart (node_children n) ->
  inline_content U ENT o src n = Ok (out, evs) ->
  let used r := In (EvUse r) evs in
  (exists ls, Forall2 (lays U ENT o src false used) (node_children n) ls /\ joined src false (node_children n) ls /\ out = spell ls)
  /\ forall ls, Forall2 (lays U ENT o src false used) (node_children n) ls -> out = spell ls ->
     placed ENT space punct defs notes raw [] None ls None ->
     exists xs, Forall2 (says U o) (node_children n) xs
       /\ read_inlines ENT space punct defs notes raw out = List.concat xs.
Proof.
  intros U ENT o src space punct defs notes raw n out evs N G E A H used. split.
  - destruct (laid_out U ENT N o src false used _ out evs E (fun r I => I) H) as (ls & F & J & S0). exists ls. auto.
  - intros ls F -> P. destruct (lays_list U ENT o src false used _ ls F A) as [(xs & X & C) Q]. exists xs. split; [exact X|].
    rewrite <- C. apply placed_reads; assumption.
Qed.
Print Assumptions C46_inlines_read_back_partial.

(** A line with emphasis in a word, after punctuation, and in emphasis. *)
Definition nd46 (v : value) (a b : nat) (cs : list node) : node := Node v (mkPos 1 a 1 b) cs.
Definition t46 (s : string) (a b : nat) : node := nd46 (NText (lit s)) a b [].
Definition src46 : list str := [lit "Some _text_ with **bold _and_ `co*de`** (*see* un*frigging*able) \*, &lt;."].
Definition para46 : node :=
  nd46 NParagraph 1 74
    [t46 "Some " 1 5; nd46 NEmph 6 11 [t46 "text" 7 10]; t46 " with " 12 17;
     nd46 NStrong 18 39 [t46 "bold " 20 24; nd46 NEmph 25 29 [t46 "and" 26 28]; t46 " " 30 30;
                         nd46 (NCode (lit "co*de")) 31 37 []];
     t46 " (" 40 41; nd46 NEmph 42 46 [t46 "see" 43 45]; t46 " un" 47 49;
     nd46 NEmph 50 59 [t46 "frigging" 51 58]; t46 "able) *, <." 60 74].
Definition P46 (s : string) : lay := LText (pieces ent42 (lit s)).
Definition lay46 : list lay :=
  [P46 "Some "; LMark false c_us [P46 "text"]; P46 " with ";
   LMark true c_star [P46 "bold "; LMark false c_us [P46 "and"]; P46 " "; LCode (lit "`co*de`") (lit "co*de")];
   P46 " ("; LMark false c_star [P46 "see"]; P46 " un"; LMark false c_star [P46 "frigging"]; P46 "able) \*, &lt;."].

Ltac not_in := let K := fresh in intro K; vm_compute in K; repeat (destruct K as [K|K]; [discriminate K|]); destruct K.
Ltac text_ok s :=
  split; [discriminate|]; split; [not_in|]; exists (lit s); split; [vm_compute; reflexivity|]; split; [vm_compute; reflexivity|];
  left; split; not_in.
Ltac placed_ok :=
  vm_compute; repeat match goal with |- _ /\ _ => split end;
  try solve [exact Logic.I | reflexivity | discriminate | intros; exact Logic.I | not_in | intros _; not_in
            | intros; discriminate | intros; reflexivity | let K := fresh in intro K; exact K
            | split; reflexivity | intros _; split; reflexivity
            | repeat (apply Forall_cons; [reflexivity|]); apply Forall_nil
            | intros _; repeat (apply Forall_cons; [repeat split|]); apply Forall_nil].
Example C46_example :
  inline_content uni_ascii ent42 default_options src46 para46 = Ok (hd [] src46, [EvCode (lit "`co*de`")])
  /\ Forall (emphatic uni_ascii ent42 default_options src46 false) (node_children para46)
  /\ apart (node_children para46)
  /\ hd [] src46 = spell lay46
  /\ placed ent42 space46 is_ascii_punct (among []) notes46 raw46 [] None lay46 None
  /\ flat_map show (read_with [] (hd [] src46))
     = lit "Some <em>text</em> with <strong>bold <em>and</em> <code>co*de</code></strong> (<em>see</em> un<em>frigging</em>able) *, <."
  /\ read_with [] (hd [] src46) = flat_map verbatim (node_children para46).
Proof.
  split; [vm_compute; reflexivity|]. split.
  { cbn [para46 node_children nd46 t46].
    apply Forall_cons; [text_ok "Some "%string|].
    apply Forall_cons; [split; [split; [exact Logic.I|exact Logic.I]|split; [text_ok "text"%string|exact Logic.I]]|].
    apply Forall_cons; [text_ok " with "%string|].
    apply Forall_cons.
    { split; [cbn; repeat split|]. split; [text_ok "bold "%string|].
      split; [split; [split; exact Logic.I|split; [text_ok "and"%string|exact Logic.I]]|].
      split; [text_ok " "%string|]. split; [|exact Logic.I]. split; [not_in|].
      exists (lit "`co*de`"). split; [vm_compute; reflexivity|]. split; [vm_compute; reflexivity|]. not_in. }
    apply Forall_cons; [text_ok " ("%string|].
    apply Forall_cons; [split; [split; exact Logic.I|split; [text_ok "see"%string|exact Logic.I]]|].
    apply Forall_cons; [text_ok " un"%string|].
    apply Forall_cons; [split; [split; exact Logic.I|split; [text_ok "frigging"%string|exact Logic.I]]|].
    apply Forall_cons; [|apply Forall_nil].
    split; [discriminate|]. split; [not_in|]. exists (lit "able) \*, &lt;."). split; [vm_compute; reflexivity|].
    split; [vm_compute; reflexivity|]. right. split; [vm_compute; reflexivity|]. split.
    { vm_compute. repeat constructor. exists 60%N. split; [reflexivity|discriminate]. }
    split; [vm_compute; repeat split; intros [? ?]; discriminate|vm_compute; repeat constructor]. }
  split; [cbn; repeat split|]. split; [vm_compute; reflexivity|]. split; [placed_ok|].
  split; vm_compute; reflexivity.
Qed.

(** A line with every kind of link, HTML and a footnote reference; the link to
    an external URL is written with a label. *)
Definition src46l : list str :=
  [lit "See [the _docs_](guide.md ""Guide""), [text](https://a.b), [*it*][r], <https://c.d>, ![logo](l.png), x<br>y[^1]."].
Definition para46l : node :=
  nd46 NParagraph 1 110
    [t46 "See " 1 4;
     nd46 (NLink (lit "guide.md") (lit "Guide")) 5 34 [t46 "the " 6 9; nd46 NEmph 10 15 [t46 "docs" 11 14]];
     t46 ", " 35 36; nd46 (NLink (lit "https://a.b") []) 37 55 [t46 "text" 38 41];
     t46 ", " 56 57; nd46 (NLink (lit "/r") []) 58 66 [nd46 NEmph 59 62 [t46 "it" 60 61]];
     t46 ", " 67 68; nd46 (NLink (lit "https://c.d") []) 69 81 [t46 "https://c.d" 70 80];
     t46 ", " 82 83; nd46 (NImage (lit "l.png") []) 84 97 [t46 "logo" 86 89];
     t46 ", x" 98 100; nd46 (NHtmlInline (lit "<br>")) 101 104 []; t46 "y" 105 105;
     nd46 (NFootnoteReference (lit "1")) 106 109 []; t46 "." 110 110].
Definition lay46l : list lay :=
  [P46 "See ";
   LLink false [P46 "the "; LMark false c_us [P46 "docs"]] (Inline (lit "guide.md") (lit "Guide")) (lit "guide.md") (lit "Guide");
   P46 ", "; LLink false [P46 "text"] Shortcut (lit "https://a.b") [];
   P46 ", "; LLink false [LMark false c_star [P46 "it"]] (ByLabel (lit "r")) (lit "/r") [];
   P46 ", "; LAngle (lit "https://c.d") (Lnk false (map Chr (lit "https://c.d")) (lit "https://c.d") []);
   P46 ", "; LLink true [P46 "logo"] (Inline (lit "l.png") []) (lit "l.png") [];
   P46 ", x"; LAngle (lit "br") (Raw (lit "<br>")); P46 "y"; LNote (lit "1"); P46 "."].
Definition defs46l : list (string * (string * string)) := [("text", ("https://a.b", "")); ("r", ("/r", ""))]%string.

Example C46_links_example :
  (exists evs, inline_content uni_ascii ent42 default_options src46l para46l
     = Ok (lit "See [the _docs_](guide.md ""Guide""), [text], [*it*][r], <https://c.d>, ![logo](l.png), x<br>y[^1].", evs))
  /\ Forall (emphatic uni_ascii ent42 default_options src46l false) (node_children para46l)
  /\ apart (node_children para46l)
  /\ lit "See [the _docs_](guide.md ""Guide""), [text], [*it*][r], <https://c.d>, ![logo](l.png), x<br>y[^1]." = spell lay46l
  /\ placed ent42 space46 is_ascii_punct (among defs46l) notes46 raw46 [] None lay46l None
  /\ flat_map show (read_with defs46l (spell lay46l))
     = lit ("See <a href='guide.md' title='Guide'>the <em>docs</em></a>, <a href='https://a.b'>text</a>, " ++
            "<a href='/r'><em>it</em></a>, <a href='https://c.d'>https://c.d</a>, <img src='l.png' alt='logo'>, x<br>y{1}.")
  /\ read_with defs46l (spell lay46l) = flat_map verbatim (node_children para46l).
Proof.
  split; [eexists; vm_compute; reflexivity|]. split.
  { cbn [para46l node_children nd46 t46].
    apply Forall_cons; [text_ok "See "%string|].
    apply Forall_cons.
    { split; [not_in|]. split; [not_in|]. eexists. split; [vm_compute; reflexivity|]. split; [not_in|].
      right. right. split; [|split; [|discriminate]].
      - right. exists false, (lit "the _docs_"), (lit "guide.md ""Guide"")"). split; vm_compute; reflexivity.
      - split; [cbn; repeat split|]. split; [text_ok "the "%string|]. split; [|exact Logic.I].
        split; [cbn; repeat split|]. split; [text_ok "docs"%string|exact Logic.I]. }
    apply Forall_cons; [text_ok ", "%string|].
    apply Forall_cons.
    { split; [not_in|]. split; [not_in|]. eexists. split; [vm_compute; reflexivity|]. split; [not_in|].
      right. right. split; [|split; [|discriminate]].
      - right. exists false, (lit "text"), (lit "https://a.b)"). split; vm_compute; reflexivity.
      - split; [cbn; repeat split|]. split; [text_ok "text"%string|exact Logic.I]. }
    apply Forall_cons; [text_ok ", "%string|].
    apply Forall_cons.
    { split; [not_in|]. split; [not_in|]. eexists. split; [vm_compute; reflexivity|]. split; [not_in|].
      left. exists (lit "*it*"). split; [exists (lit "[r]"); split; [vm_compute; reflexivity|split; [vm_compute; reflexivity|discriminate]]|].
      split; [left; reflexivity|]. exists [LMark false c_star [P46 "it"]].
      split; [|split; vm_compute; reflexivity]. split; [|exact Logic.I]. split; [reflexivity|].
      split; [|exact Logic.I]. split; [|intros c K; injection K as <-; reflexivity].
      split; [vm_compute; reflexivity|]. intros c K [I|[I|[]]]; injection I as <-; discriminate K. }
    apply Forall_cons; [text_ok ", "%string|].
    apply Forall_cons.
    { split; [not_in|]. split; [not_in|]. eexists. split; [vm_compute; reflexivity|]. split; [not_in|].
      right. right. split; [left; not_in|]. split; [|reflexivity].
      split; [cbn; repeat split|]. split; [text_ok "https://c.d"%string|exact Logic.I]. }
    apply Forall_cons; [text_ok ", "%string|].
    apply Forall_cons.
    { split; [not_in|]. split; [not_in|]. eexists. split; [vm_compute; reflexivity|]. split; [not_in|].
      right. right. split; [|split; [|discriminate]].
      - right. exists true, (lit "logo"), (lit "l.png)"). split; vm_compute; reflexivity.
      - split; [cbn; repeat split|]. split; [text_ok "logo"%string|exact Logic.I]. }
    apply Forall_cons; [text_ok ", x"%string|].
    apply Forall_cons; [split; [reflexivity|]; split; [not_in|]; exists (lit "br"); reflexivity|].
    apply Forall_cons; [text_ok "y"%string|].
    apply Forall_cons; [split; [reflexivity|not_in]|].
    apply Forall_cons; [text_ok "."%string|apply Forall_nil]. }
  split; [cbn; repeat split|]. split; [vm_compute; reflexivity|]. split.
  { assert (A1 : angle_reads raw46 (lit "https://c.d") (Lnk false (map Chr (lit "https://c.d")) (lit "https://c.d") [])).
    { left. split; [reflexivity|]. intro rest. reflexivity. }
    assert (A2 : angle_reads raw46 (lit "br") (Raw (lit "<br>"))).
    { right. intro rest. split; reflexivity. }
    unfold lay46l. cbn [placed]. repeat match goal with |- _ /\ _ => split end; try exact A1; try exact A2; try exact Logic.I; clear A1 A2; placed_ok. }
  split; vm_compute; reflexivity.
Qed.

(** ** Refutations: what is written and read differently *)

(** A document of one line; the definitions come after it. *)
Definition doc46 (source : string) (cs : list node) : res str :=
  rbind (serialize_root uni_ascii [] ent42 default_options (Wasm None) [lit source] true true
           (nd46 NDocument 1 (String.length source) [nd46 NParagraph 1 (String.length source) cs]))
    (fun s => Ok (output s)).
Definition definition_lines (ds : list (string * (string * string))) : str :=
  if is_nil ds then [] else
  [c_nl] ++ flat_map (fun d => [c_lbr] ++ lit (fst d) ++ lit "]: " ++ lit (fst (snd d)) ++ [c_nl]) ds.
(** The line reads as the tree; what is written for the tree, with its
    definitions, reads as something else. *)
Definition misread46 (source : string) (cs : list node) (out : string) (ds : list (string * (string * string)))
    (seen : string) : Prop :=
  read_with [] (lit source) = flat_map verbatim cs
  /\ doc46 source cs = Ok (lit out ++ [c_nl] ++ definition_lines ds)
  /\ flat_map show (read_with ds (lit out)) = lit seen
  /\ read_with ds (lit out) <> flat_map verbatim cs.
Ltac misread := split; [vm_compute; reflexivity|]; split; [vm_compute; reflexivity|]; split; [vm_compute; reflexivity|];
  vm_compute; discriminate.

(** In a word, '_' is no mark: emphasis there is lost when its text contains an
    asterisk. *)
Theorem C46_word_refuted : exists source cs out ds seen, misread46 source cs out ds seen.
Proof.
  exists "a*b \* c*d"%string, [t46 "a" 1 1; nd46 NEmph 2 9 [t46 "b * c" 3 8]; t46 "d" 10 10],
    "a_b \* c_d"%string, [], "a_b * c_d"%string. misread.
Qed.
Print Assumptions C46_word_refuted.
(** Strong emphasis around emphasis with an asterisk in it: both are written
    with '_', and three of them are read the other way round. *)
Theorem C46_nested_refuted : exists source cs out ds seen, misread46 source cs out ds seen.
Proof.
  exists "**_a \* b_**"%string, [nd46 NStrong 1 12 [nd46 NEmph 3 10 [t46 "a * b" 4 9]]],
    "___a \* b___"%string, [], "<em><strong>a * b</strong></em>"%string. misread.
Qed.
Print Assumptions C46_nested_refuted.
(** A link to an external URL before a parenthesis: written with a label, the
    link takes the text in the parenthesis for its URL. *)
Theorem C46_parenthesis_refuted : exists source cs out ds seen, misread46 source cs out ds seen.
Proof.
  exists "[text](https://x.y)(see)"%string,
    [nd46 (NLink (lit "https://x.y") []) 1 19 [t46 "text" 2 5]; t46 "(see)" 20 24],
    "[text](see)"%string, [("text", ("https://x.y", ""))]%string, "<a href='see'>text</a>"%string. misread.
Qed.
Print Assumptions C46_parenthesis_refuted.
(** A URL with a space loses its angle brackets and is no URL. *)
Theorem C46_spaced_url_refuted : exists source cs out ds seen, misread46 source cs out ds seen.
Proof.
  exists "[a](<my url>)"%string, [nd46 (NLink (lit "my url") []) 1 13 [t46 "a" 2 2]],
    "[a](my url)"%string, [], "[a](my url)"%string. misread.
Qed.
Print Assumptions C46_spaced_url_refuted.
(** So does a URL with a parenthesis: the link ends there. *)
Theorem C46_url_parenthesis_refuted : exists source cs out ds seen, misread46 source cs out ds seen.
Proof.
  exists "[a](<b)c>)"%string, [nd46 (NLink (lit "b)c") []) 1 10 [t46 "a" 2 2]],
    "[a](b)c)"%string, [], "<a href='b'>a</a>c)"%string. misread.
Qed.
Print Assumptions C46_url_parenthesis_refuted.
(** A title with quotation marks is written between quotation marks. *)
Theorem C46_title_refuted : exists source cs out ds seen, misread46 source cs out ds seen.
Proof.
  exists "[a](u 'say ""hi""')"%string, [nd46 (NLink (lit "u") (lit "say ""hi""")) 1 17 [t46 "a" 2 2]],
    "[a](u ""say ""hi"""")"%string, [], "[a](u ""say ""hi"""")"%string. misread.
Qed.
Print Assumptions C46_title_refuted.
(** A link whose text is its URL is written between angle brackets, also if the
    URL is relative: it becomes an HTML tag. *)
Theorem C46_relative_url_refuted : exists source cs out ds seen, misread46 source cs out ds seen.
Proof.
  exists "[foo](foo)"%string, [nd46 (NLink (lit "foo") []) 1 10 [t46 "foo" 2 4]], "<foo>"%string, [], "<foo>"%string. misread.
Qed.
Print Assumptions C46_relative_url_refuted.
(** ... and if the text is emphasised: the emphasis is lost. *)
Theorem C46_emphasised_url_refuted : exists source cs out ds seen, misread46 source cs out ds seen.
Proof.
  exists "[*https://a.b*](https://a.b)"%string,
    [nd46 (NLink (lit "https://a.b") []) 1 28 [nd46 NEmph 2 14 [t46 "https://a.b" 3 13]]],
    "<https://a.b>"%string, [], "<a href='https://a.b'>https://a.b</a>"%string. misread.
Qed.
Print Assumptions C46_emphasised_url_refuted.
(** Code does not count as text of the link: with an empty URL it is lost. *)
Theorem C46_empty_url_refuted : exists source cs out ds seen, misread46 source cs out ds seen.
Proof.
  exists "[`x`]()"%string, [nd46 (NLink [] []) 1 7 [nd46 (NCode (lit "x")) 2 4 []]], "<>"%string, [], "<>"%string. misread.
Qed.
Print Assumptions C46_empty_url_refuted.
(** A URL between angle brackets that contains brackets is taken for a link
    with a label: only what is in the brackets stays of its text. *)
Theorem C46_bracket_url_refuted : exists source cs out ds seen, misread46 source cs out ds seen.
Proof.
  exists "<https://a/?x[b]=1>"%string, [nd46 (NLink (lit "https://a/?x[b]=1") []) 1 19 [t46 "https://a/?x[b]=1" 2 18]],
    "[b]"%string, [("b", ("https://a/?x[b]=1", ""))]%string, "<a href='https://a/?x[b]=1'>b</a>"%string. misread.
Qed.
Print Assumptions C46_bracket_url_refuted.
(** A new label makes a link of every text in brackets that equals it. *)
Theorem C46_new_label_refuted : exists source cs out ds seen, misread46 source cs out ds seen.
Proof.
  exists "See [foo](https://x.y) and [foo]."%string,
    [t46 "See " 1 4; nd46 (NLink (lit "https://x.y") []) 5 22 [t46 "foo" 6 8]; t46 " and [foo]." 23 33],
    "See [foo] and [foo]."%string, [("foo", ("https://x.y", ""))]%string,
    "See <a href='https://x.y'>foo</a> and <a href='https://x.y'>foo</a>."%string. misread.
Qed.
Print Assumptions C46_new_label_refuted.
(** An escaped exclamation mark before a link: its backslash is doubled, and the
    link becomes an image. *)
Theorem C46_exclamation_refuted : exists source cs out ds seen, misread46 source cs out ds seen.
Proof.
  exists "Ah\![foo](u)"%string, [t46 "Ah!" 1 4; nd46 (NLink (lit "u") []) 5 12 [t46 "foo" 6 8]],
    "Ah\\![foo](u)"%string, [], "Ah\<img src='u' alt='foo'>"%string. misread.
Qed.
Print Assumptions C46_exclamation_refuted.
(** A character reference in a URL is decoded and not written as one again. *)
Theorem C46_url_reference_refuted : exists source cs out ds seen, misread46 source cs out ds seen.
Proof.
  exists "[a](u?x&#38;lt;)"%string, [nd46 (NLink (lit "u?x&lt;") []) 1 16 [t46 "a" 2 2]],
    "[a](u?x&lt;)"%string, [], "<a href='u?x<'>a</a>"%string. misread.
Qed.
Print Assumptions C46_url_reference_refuted.

(** A footnote reference before a link to an external URL: the two become one
    link whose text is the name of the footnote. *)
Theorem C46_footnote_refuted : exists src cs out ds seen,
  read_with [] (hd [] src) = flat_map verbatim cs
  /\ rbind (serialize_root uni_ascii [] ent42 default_options (Wasm None) src true true
              (Node NDocument (mkPos 1 1 3 11)
                 [nd46 NParagraph 1 26 cs;
                  Node (NFootnoteDefinition (lit "1")) (mkPos 3 1 3 11)
                    [Node NParagraph (mkPos 3 7 3 11) [Node (NText (lit "Note.")) (mkPos 3 7 3 11) []]]]))
       (fun s => Ok (output s))
     = Ok (out ++ [c_nl; c_nl] ++ lit "[^1]: Note." ++ [c_nl] ++ definition_lines ds)
  /\ flat_map show (read_with ds out) = lit seen
  /\ read_with ds out <> flat_map verbatim cs.
Proof.
  exists [lit "Text[^1][foo](https://x.y)"; []; lit "[^1]: Note."].
  exists [t46 "Text" 1 4; nd46 (NFootnoteReference (lit "1")) 5 8 []; nd46 (NLink (lit "https://x.y") []) 9 26 [t46 "foo" 10 12]].
  exists (lit "Text[^1][foo]"), [("foo", ("https://x.y", ""))]%string, "Text<a href='https://x.y'>^1</a>"%string. misread.
Qed.
Print Assumptions C46_footnote_refuted.

(** A paragraph that begins with a link to an external URL followed by a colon:
    it is written as the definition of a link, and is no paragraph any more;
    what was after the colon becomes the URL. *)
Theorem C46_definition_refuted : exists source cs,
  read_with [] (lit source) = flat_map verbatim cs
  /\ doc46 source cs = Ok (lit "[foo]: bar" ++ [c_nl; c_nl] ++ lit "[foo]: https://x.y" ++ [c_nl])
  /\ read_definition (lit "[foo]: bar" ++ [c_nl]) = Some (lit "foo", lit "bar", []).
Proof.
  exists "[foo](https://x.y): bar"%string, [nd46 (NLink (lit "https://x.y") []) 1 18 [t46 "foo" 2 4]; t46 ": bar" 19 23].
  repeat split; vm_compute; reflexivity.
Qed.
Print Assumptions C46_definition_refuted.
