(** What formatted text is read as (C45). *)
From Coq Require Import Bool Arith NArith String List.
From Verif Require Import Base OptsModel CodeModel HeadingModel WrapModel AstModel StateModel InlineModel WarnModel SpecDoc SpecNotes SpecCode SpecHeading SpecRefs SpecWrap SpecStructure.
Import ListNotations.

(** CommonMark: two spaces at the end of a line are a hard line break, any
    other line ending is a soft one.  (A backslash at the end of a line, the
    other hard break, is not looked for.) *)
Fixpoint rejoin (ls : list str) : str :=
  match ls with
  | [] => []
  | [l] => l
  | l :: r => match strip_suffix [c_sp; c_sp] l with Some b => b ++ [c_nl] | None => l ++ [soft] end ++ rejoin r
  end.
(** The text of the paragraph [out], whose first line begins with [fp] and the
    others with [cp]. *)
Definition reread (fp cp out : str) : str :=
  match split_on c_nl out with
  | [] => []
  | l :: r => rejoin (skipn (List.length fp) l :: map (skipn (List.length cp)) r)
  end.

(** Text without blank lines, without white space around its lines, without
    two spaces one after the other and without other white space. *)
Definition single_spaced (t : str) : Prop :=
  Forall (fun s => Forall trimmed (soft_lines s)) (segments t)
  /\ (forall a b, t <> a ++ c_sp :: c_sp :: b)
  /\ Forall (fun c => is_ws c = true -> c = c_sp \/ c = c_nl) t.

(** ** Documents read back

    [again w n n']: at the place [w], [n'] is what [n] becomes when the output
    for it is parsed.  Paragraphs hold the lines they were wrapped into,
    headings are the same in sentence case, if that is asked for (C52 says when a
    heading in sentence case is), rules, code, tables, HTML and references are as
    they were.  What is asked of
    positions in the source: a gap before a list in an item and below the title
    of an alert stays a gap. *)
Section Again.
Variable U : Uni.
Variable PN : list (str * str).
Variable ENT : str -> option str.
Variable o : Options.
Variable B : backend.
Variables src src' : list str.

(** What a line at a place begins with. *)
Definition line_start (w : place) : str :=
  match w with At a k d => spaces (4 * a) ++ List.concat (repeat (lit "> ") k) ++ spaces (4 * d) end.
Definition list_node (n : node) : Prop := exists k t, node_value n = NList k t.
Fixpoint same_gaps (cs cs' : list node) : Prop :=
  match cs, cs' with
  | c :: r, c' :: r' =>
      match r, r' with
      | x :: _, x' :: _ => list_node x -> (source_gap c x <-> source_gap c' x')
      | _, _ => True
      end /\ same_gaps r r'
  | _, _ => True
  end.
(** The title of an alert is followed by an empty line. *)
Definition title_gap (p : sourcepos) (cs : list node) : Prop :=
  exists c r, cs = c :: r /\ start_line p + 1 < start_line (node_pos c).
(** Formatters make the same of the code. *)
Definition same_code (info literal info' literal' : str) : Prop :=
  block_info o info' = block_info o info
  /\ forall k content calls failed, settles o B k info literal content calls failed ->
       exists calls' failed', settles o B k info' literal' content calls' failed' /\ List.length calls' = List.length calls.

(** The source of a paragraph does not begin like an abbreviation. *)
Definition unstarred (lines : list str) (p : sourcepos) : Prop :=
  forall s, extract_source lines p = Ok (Some s) -> forall a b, Forall (fun c => is_ws c = true) a -> s <> a ++ lit "*[" ++ b.
(** The cells of a table hold the same text. *)
Definition same_cells (rows rows' : list node) : Prop :=
  Forall2 (fun r r' => Forall2 (fun c c' => exists x evs, inline_content U ENT o src c = Ok (x, evs)
                                    /\ inline_content U ENT o src' c' = Ok (x, evs)) (node_children r) (node_children r')) rows rows'.

(** Blocks in the details of a description. *)
Definition detail_kind (n : node) : Prop :=
  match node_value n with NParagraph | NCodeBlock _ _ | NBlockQuote | NAlert _ => True | _ => False end.

(** The text of a heading, with the nouns [ns] of the directives before it. *)
Definition cased (ns : list str * list str) (t : str) : str :=
  if heading_sentence_case o then to_sentence_case U PN (heading_proper_nouns o ++ fst ns) (heading_common_nouns o ++ snd ns) t else t.

Section Nouns.
Variable ns : list str * list str.
Inductive again : place -> node -> node -> Prop :=
| ag_para : forall a k d p cs p' cs' x x' evs,
    unstarred src p -> unstarred src' p' -> extract_source src' p' <> Panic ->
    inline_content U ENT o src (Node NParagraph p cs) = Ok (x, evs) ->
    inline_content U ENT o src' (Node NParagraph p' cs') = Ok (x', evs) ->
    (if d =? 0
     then single_spaced x
          /\ x' = reread (line_start (At a k d)) (line_start (At a k d)) (wrap_text U x (line_start (At a k d)) (line_width o))
     else single_spaced (trim x)
          /\ trim x' = reread [] (line_start (At a k d)) (wrap_text_first_line U (trim x) [] (line_start (At a k d)) (line_width o))) ->
    again (At a k d) (Node NParagraph p cs) (Node NParagraph p' cs')
| ag_head : forall w level p cs p' cs' t t' evs,
    collect_text U ENT o src (Node (NHeading level) p cs) = Ok (t, evs) ->
    collect_text U ENT o src' (Node (NHeading level) p' cs') = Ok (t', evs) ->
    cased ns t' = cased ns t ->
    again w (Node (NHeading level) p cs) (Node (NHeading level) p' cs')
| ag_code : forall w info literal p cs info' literal' p' cs', same_code info literal info' literal' ->
    again w (Node (NCodeBlock info literal) p cs) (Node (NCodeBlock info' literal') p' cs')
| ag_rule : forall w p cs p' cs', again w (Node NThematicBreak p cs) (Node NThematicBreak p' cs')
| ag_table : forall w aligns p cs p' cs', same_cells cs cs' -> again w (Node (NTable aligns) p cs) (Node (NTable aligns) p' cs')
| ag_front : forall w content content' p cs p' cs', trim content' = trim content ->
    again w (Node (NFrontMatter content) p cs) (Node (NFrontMatter content') p' cs')
| ag_html : forall w literal p cs p' cs', parse_directive literal = None ->
    again w (Node (NHtmlBlock literal) p cs) (Node (NHtmlBlock literal) p' cs')
| ag_quote : forall k d p cs p' cs', k = 0 \/ d = 0 -> Forall2 (again (At d (S k) 0)) cs cs' ->
    again (At 0 k d) (Node NBlockQuote p cs) (Node NBlockQuote p' cs')
| ag_alert : forall k d a p cs p' cs', k = 0 \/ d = 0 -> (title_gap p cs <-> title_gap p' cs') ->
    Forall2 (again (At d (S k) 0)) cs cs' -> again (At 0 k d) (Node (NAlert a) p cs) (Node (NAlert a) p' cs')
| ag_list : forall k d kind tight p cs p' cs', k <= 1 -> Forall2 (again_item (At 0 k (S d))) cs cs' ->
    again (At 0 k d) (Node (NList kind tight) p cs) (Node (NList kind tight) p' cs')
| ag_describe : forall p cs p' cs', Forall2 again_entry cs cs' -> again (At 0 0 0) (Node NDescriptionList p cs) (Node NDescriptionList p' cs')
with again_item : place -> node -> node -> Prop :=
| ag_item : forall w p cs p' cs', same_gaps cs cs' -> Forall2 (again w) cs cs' -> again_item w (Node NItem p cs) (Node NItem p' cs')
| ag_task : forall w symbol symbol' p cs p' cs', (symbol = None <-> symbol' = None) -> same_gaps cs cs' -> Forall2 (again w) cs cs' ->
    again_item w (Node (NTaskItem symbol) p cs) (Node (NTaskItem symbol') p' cs')
with again_entry : node -> node -> Prop :=
| ag_entry : forall p q r t ds p' q' r' t' ds', node_value t = NParagraph ->
    again (At 0 0 0) t t' -> Forall detail_kind ds -> Forall2 (again (At 0 0 1)) ds ds' ->
    again_entry (Node NDescriptionItem p [Node NDescriptionTerm q [t]; Node NDescriptionDetails r ds])
      (Node NDescriptionItem p' [Node NDescriptionTerm q' [t']; Node NDescriptionDetails r' ds']).

End Nouns.

(** A footnote definition: its words are as they were, or the blocks in it.
    (Footnotes are read before the directives are.) *)
Inductive again_note : node -> node -> Prop :=
| an_text : forall name p cs p' cs' x x' evs, ~ has_blocks cs -> ~ has_blocks cs' ->
    wcat (with_next (collect_inline U ENT o src) cs) = Ok (x, evs) ->
    wcat (with_next (collect_inline U ENT o src') cs') = Ok (x', evs) -> words x' = words x ->
    again_note (Node (NFootnoteDefinition name) p cs) (Node (NFootnoteDefinition name) p' cs')
| an_blocks : forall name p cs p' cs', has_blocks cs -> has_blocks cs' -> Forall2 (again ([], []) (At 0 0 0)) cs cs' ->
    again_note (Node (NFootnoteDefinition name) p cs) (Node (NFootnoteDefinition name) p' cs').

(** The same kind of block, where it matters what stands around it. *)
Definition same_look (n n' : node) : Prop :=
  (forall l, node_value n = NHeading l <-> node_value n' = NHeading l)
  /\ (forall x, node_value n = NHtmlBlock x <-> node_value n' = NHtmlBlock x)
  /\ ((exists x, node_value n = NFrontMatter x) <-> (exists x, node_value n' = NFrontMatter x))
  /\ ~ note_definition n'.

(** The children of a document, from a mode on.  Blocks that directives keep as
    they are have the same lines in both sources; so has the rest of a file that
    is kept as it is, where only the footnotes are looked at. *)
Definition notes_in (cs : list node) : list node :=
  filter (fun c => match node_value c with NFootnoteDefinition _ => true | _ => false end) cs.
Definition after_nouns (ns : list str * list str) (d : directive) : list str * list str :=
  match d with ProperNouns l => (fst ns ++ l, snd ns) | CommonNouns l => (fst ns, snd ns ++ l) | _ => ns end.
Variables ends_nl ends_nl' : bool.
Inductive again_blocks : mode -> list str * list str -> list node -> list node -> Prop :=
| ab_nil : forall m ns, again_blocks m ns [] []
| ab_note : forall m ns n n' cs cs', again_note n n' -> again_blocks m ns cs cs' -> again_blocks m ns (n :: cs) (n' :: cs')
| ab_directive : forall m ns n n' cs cs' d, directs n d -> d <> DisableFile -> node_value n' = node_value n ->
    again_blocks (after_directive m d) (after_nouns ns d) cs cs' -> again_blocks m ns (n :: cs) (n' :: cs')
| ab_file : forall m ns n n' cs cs', directs n DisableFile -> node_value n' = node_value n ->
    skipn (end_line (node_pos n')) src' = skipn (end_line (node_pos n)) src -> ends_nl' = ends_nl ->
    Forall2 again_note (notes_in cs) (notes_in cs') -> again_blocks m ns (n :: cs) (n' :: cs')
| ab_trails : forall m ns n n' cs cs', trails n cs -> node_value n' = node_value n ->
    again_blocks m ns cs cs' -> again_blocks m ns (n :: cs) (n' :: cs')
| ab_block : forall m ns n n' cs cs', ordinary n cs -> frozen m n = false -> again ns (At 0 0 0) n n' ->
    again_blocks (after_block m n) ns cs cs' -> again_blocks m ns (n :: cs) (n' :: cs')
| ab_kept : forall m ns n n' cs cs' x, ordinary n cs -> frozen m n = true -> same_look n n' ->
    extract_source src (node_pos n) = Ok (Some x) -> extract_source src' (node_pos n') = Ok (Some x) ->
    again_blocks (after_block m n) ns cs cs' -> again_blocks m ns (n :: cs) (n' :: cs').

(** Where footnotes may be written, those first referenced before are the
    same. *)
Definition same_sides (cs cs' : list node) : Prop := forall n n' name l l', In (n, n') (combine cs cs') ->
  node_value n = NHeading 2 \/ node_value n = NHeading 3 \/ (exists d, directs n d) -> In name (note_names cs) ->
  first_line name (flat_map references cs) l -> first_line name (flat_map references cs') l' ->
  (in_time (Some (start_line (node_pos n))) l <-> in_time (Some (start_line (node_pos n'))) l').
End Again.
