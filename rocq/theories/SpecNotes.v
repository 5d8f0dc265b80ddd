(** Where footnotes are written.  Independent of how the serializer keeps track
    of them. *)
From Coq Require Import Bool Arith NArith String List.
From Verif Require Import Base OptsModel HeadingModel AstModel StateModel InlineModel WarnModel SerModel SpecState SpecWrap SpecContext SpecDoc SpecRefs.
Import ListNotations.

(** The names of the footnote definitions among the children of a document. *)
Definition note_names (cs : list node) : list str :=
  flat_map (fun c => match node_value c with NFootnoteDefinition name => [name] | _ => [] end) cs.

(** The references to footnotes below a node, in reading order. *)
Fixpoint references (n : node) : list (str * nat) :=
  match n with
  | Node v p cs =>
      match v with NFootnoteReference name => [(name, start_line p)] | _ => [] end ++ flat_map references cs
  end.
(** The line of the first reference to [name]; 0 if there is none. *)
Inductive first_line (name : str) : list (str * nat) -> nat -> Prop :=
| fl_none : first_line name [] 0
| fl_here : forall l r, first_line name ((name, l) :: r) l
| fl_later : forall x l r m, x <> name -> first_line name r m -> first_line name ((x, l) :: r) m.

(** The text of a footnote is its marker and the words of its content; nothing
    at all is written for a footnote made of blocks without content. *)
Definition note_text (f : footnote) (x : str) : Prop :=
  (exists r, x = [c_lbr; c_caret] ++ fn_name f ++ [c_rbr; c_colon; c_sp] ++ r /\ words r = words (fn_content f))
  \/ (x = [] /\ fn_has_blocks f = true /\ fn_content f = []).
(** After [base], [text] contains exactly the footnotes [g] among other text,
    each beginning a line. *)
Inductive noted (base : str) : str -> list footnote -> Prop :=
| nt_nil : noted base [] []
| nt_text : forall text g x, noted base text g -> noted base (text ++ x) g
| nt_note : forall text g f x, noted base text g -> (exists y, base ++ text = y ++ [c_nl]) -> note_text f x ->
    noted base (text ++ x) (g ++ [f]).

(** Footnotes may be written before the child [n]. *)
Definition flushes (prev : option node) (n : node) : Prop :=
  (exists d, directs n d /\ (d = Disable \/ d = DisableNextLine \/ d = DisableNextSection))
  \/ (prev <> None /\ (node_value n = NHeading 2 \/ node_value n = NHeading 3) /\ forall d, ~ directs n d).

(** [text] is what is written for [cs], with the footnotes in groups: each
    group before a child that ends a section, the last one after all of them. *)
Inductive flow : str -> option node -> list node -> list (option nat * list footnote) -> str -> Prop :=
| fw_end : forall base prev g x, noted base x g -> flow base prev [] [(None, g)] x
| fw_skip : forall base prev n cs gs x, note_definition n \/ trails n cs -> flow base (Some n) cs gs x ->
    flow base prev (n :: cs) gs x
| fw_flush : forall base prev n cs g gs x own y, ~ note_definition n -> ~ trails n cs -> flushes prev n ->
    noted base x g -> flow (base ++ x ++ own) (Some n) cs gs y ->
    flow base prev (n :: cs) ((Some (start_line (node_pos n)), g) :: gs) (x ++ own ++ y)
| fw_plain : forall base prev n cs gs own y, ~ note_definition n -> ~ trails n cs -> ~ flushes prev n ->
    flow (base ++ own) (Some n) cs gs y -> flow base prev (n :: cs) gs (own ++ y).

(** A footnote first referenced on [line] belongs before [limit]. *)
Definition in_time (limit : option nat) (line : nat) : Prop :=
  match limit with Some l => 0 < line < l | None => True end.
(** Every footnote is in the first group it belongs to. *)
Inductive placed : list (option nat * list footnote) -> Prop :=
| pl_nil : placed []
| pl_cons : forall limit g gs, Forall (fun f => in_time limit (fn_reference_line f)) g ->
    Forall (fun h => Forall (fun f => ~ in_time limit (fn_reference_line f)) (snd h)) gs -> placed gs ->
    placed ((limit, g) :: gs).

(** No footnote definition below [n]. *)
Definition no_notes (n : node) : Prop := forall m, within m n -> ~ note_definition m.

(** *** The content of a footnote *)
Definition has_blocks (cs : list node) : Prop :=
  (exists c, In c cs /\ ((exists info l, node_value c = NCodeBlock info l) \/ node_value c = NBlockQuote
                        \/ (exists k t, node_value c = NList k t) \/ exists a, node_value c = NTable a))
  \/ (exists a x b y c, cs = a ++ x :: b ++ y :: c /\ node_value x = NParagraph /\ node_value y = NParagraph).
(** Texts separated by blank lines. *)
Definition apart (ts : list str) : str :=
  match ts with
  | [] => []
  | t :: r => t ++ flat_map (fun x => match x with [] => [] | _ => [c_nl; c_nl] ++ x end) r
  end.
Section Content.
Variable write : option node -> node -> st -> res st.
Variable inline_text : list node -> W.
(** What is written for the children alone, without white space at its end; or
    their text. *)
Definition note_content (cs : list node) (f : footnote) : Prop :=
  (fn_has_blocks f = true /\ has_blocks cs /\
     exists ts, Forall2 (fun c t => exists next s s', output s = [] /\ write next c s = Ok s' /\ t = trim_end (output s')) cs ts
       /\ fn_content f = trim_end (apart ts))
  \/ (fn_has_blocks f = false /\ ~ has_blocks cs /\ exists x evs, inline_text cs = Ok (x, evs) /\ fn_content f = trim x).
Definition defined_by (cs : list node) (f : footnote) : Prop :=
  exists p kids, In (Node (NFootnoteDefinition (fn_name f)) p kids) cs /\ note_content kids f.
End Content.
