(** What it means for references and footnotes to be defined once.
    Independent of how the serializer keeps track of them. *)
From Coq Require Import Bool Arith NArith String List.
From Verif Require Import Base OptsModel HeadingModel AstModel StateModel InlineModel WarnModel SerModel SpecState.
Import ListNotations.

(** The references used, the references defined and the footnotes defined, in
    the order in which they were written. *)
Definition uses (t : list event) : list reference :=
  flat_map (fun e => match e with Use r => [r] | _ => [] end) t.
Definition defs (t : list event) : list reference :=
  flat_map (fun e => match e with Def r => [r] | _ => [] end) t.
Definition notes (t : list event) : list footnote :=
  flat_map (fun e => match e with Footnote f => [f] | _ => [] end) t.

(** [text] is written with exactly the definitions [ds] among other text, each
    on a line of its own. *)
Inductive laid : str -> list reference -> Prop :=
| laid_nil : laid [] []
| laid_text : forall text ds x, laid text ds -> laid (text ++ x) ds
| laid_def : forall text ds r, laid (text ++ [c_nl]) ds -> laid (text ++ [c_nl] ++ definition_line r) (ds ++ [r]).

(** The first of [ds] whose label a reader takes to be [label].  [norm] is the
    reader's normalization of labels (folding case, collapsing spaces). *)
Inductive resolves (norm : str -> str) (label : str) : list reference -> reference -> Prop :=
| res_here : forall r ds, norm (ref_label r) = norm label -> resolves norm label (r :: ds) r
| res_later : forall r d ds, norm (ref_label r) <> norm label -> resolves norm label ds d -> resolves norm label (r :: ds) d.

(** A label is written in brackets in a text.  U+0000 marks a line ending. *)
Definition spaced (s : str) : str := map (fun c => if N.eqb c 0 then c_sp else c) s.
Definition labelled (text label : str) : Prop :=
  exists a b, spaced text = a ++ [c_lbr] ++ spaced label ++ [c_rbr] ++ b.

(** A link or an image written with its URL. *)
Definition inline_form (url title text : str) : Prop :=
  (exists t, text = [c_lbr] ++ t ++ [c_rbr; c_lpar] ++ url ++ match title with [] => [] | _ => [c_sp; c_dq] ++ title ++ [c_dq] end ++ [c_rpar])
  \/ (exists t, text = [c_bang; c_lbr] ++ t ++ [c_rbr; c_lpar] ++ url ++ match title with [] => [] | _ => [c_sp; c_dq] ++ title ++ [c_dq] end ++ [c_rpar])
  \/ (title = [] /\ text = [c_lt] ++ url ++ [c_gt]).

(** [m] is a link or an image with this URL and title. *)
Definition links_to (m : node) (url title : str) : Prop :=
  node_value m = NLink url title \/ node_value m = NImage url title.

(** [m] is inline content of [n], not inside the text of a link. *)
Inductive content_of (m : node) : node -> Prop :=
| co_here : content_of m m
| co_below : forall v p cs c,
    match v with
    | NText _ | NSoftBreak | NLineBreak | NCode _ | NLink _ _ | NImage _ _ | NHtmlInline _ | NFootnoteReference _ => False
    | _ => True
    end ->
    In c cs -> content_of m c -> content_of m (Node v p cs).

(** *** Reading a definition back (CommonMark 0.31, 4.7, on one line) *)
(** Text in which backslashes escape and no other [special] character occurs. *)
Inductive guarded (special : char -> bool) : str -> Prop :=
| g_nil : guarded special []
| g_char : forall c s, c <> c_bs -> special c = false -> guarded special s -> guarded special (c :: s)
| g_pair : forall c s, guarded special s -> guarded special (c_bs :: c :: s).
Definition bracket (c : char) : bool := N.eqb c c_lbr || N.eqb c c_rbr.
Definition quote_mark (c : char) : bool := N.eqb c c_dq.
(** Readers.  Each returns what it read and the rest. *)
Fixpoint read_until (stop bad : char -> bool) (s : str) : option (str * str) :=
  match s with
  | [] => None
  | c :: r =>
      if N.eqb c c_bs then
        match r with
        | [] => None
        | d :: r' => option_map (fun x => (c :: d :: fst x, snd x)) (read_until stop bad r')
        end
      else if stop c then Some ([], r)
      else if bad c then None
      else option_map (fun x => (c :: fst x, snd x)) (read_until stop bad r)
  end.
(** A destination that is not in angle brackets: no spaces, no control
    characters, balanced parentheses. *)
Fixpoint read_dest (depth : nat) (s : str) : option (str * str) :=
  match s with
  | [] => match depth with 0 => Some ([], []) | _ => None end
  | c :: r =>
      if (N.eqb c c_sp || N.eqb c c_nl)%bool then match depth with 0 => Some ([], s) | _ => None end
      else if (N.ltb c 32 || N.eqb c 127)%bool then None
      else
        let more d := option_map (fun x => (c :: fst x, snd x)) (read_dest d r) in
        if N.eqb c c_lpar then more (S depth)
        else if N.eqb c c_rpar then match depth with 0 => None | S d => more d end
        else more depth
  end.
Definition read_definition (line : str) : option (str * str * str) :=
  match line with
  | c :: s =>
      if N.eqb c c_lbr then
        match read_until (N.eqb c_rbr) (N.eqb c_lbr) s with
        | Some (label, colon :: sp :: s1) =>
            if (N.eqb colon c_colon && N.eqb sp c_sp && existsb (fun c => negb (is_ws c)) label)%bool then
              match s1 with
              | [] => None
              | first :: _ =>
                  if N.eqb first c_lt then None
                  else
                  match read_dest 0 s1 with
                  | Some ([], _) => None
                  | Some (url, rest) =>
                      match rest with
                      | [nl] => if N.eqb nl c_nl then Some (label, url, []) else None
                      | sp2 :: q :: s2 =>
                          if (N.eqb sp2 c_sp && N.eqb q c_dq)%bool then
                            match read_until (N.eqb c_dq) (fun _ => false) s2 with
                            | Some (title, [nl]) => if N.eqb nl c_nl then Some (label, url, title) else None
                            | _ => None
                            end
                          else None
                      | _ => None
                      end
                  | None => None
                  end
              end
            else None
        | _ => None
        end
      else None
  | [] => None
  end.
