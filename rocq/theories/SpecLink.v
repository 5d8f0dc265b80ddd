(** How STYLE.md ("Links", lines 255-323) wants links to be written.  Independent
    of how the serializer finds out how a link was written before. *)
From Coq Require Import Bool Arith NArith String List.
From Verif Require Import Base AstModel StateModel.
Import ListNotations.

(** Brackets in pairs. *)
Inductive paired : str -> Prop :=
| paired_nil : paired []
| paired_char : forall c s, c <> c_lbr -> c <> c_rbr -> paired s -> paired (c :: s)
| paired_in : forall a s, paired a -> paired s -> paired ([c_lbr] ++ a ++ [c_rbr] ++ s).

(** How a link stands in the source: with its URL (or as the URL alone), or as a
    reference with its text and its label. *)
Inductive spelling :=
| WithUrl
| Short (inside : str)
| Empty (inside : str)
| Full (inside label : str).
Definition blank_text (s : str) : Prop := split_whitespace s = [].
Inductive spelled : str -> spelling -> Prop :=
| sp_url : forall source, ~ In c_lbr source -> spelled source WithUrl
| sp_inline : forall inside tail, paired inside -> spelled ([c_lbr] ++ inside ++ [c_rbr; c_lpar] ++ tail) WithUrl
| sp_short : forall inside tail, paired inside -> hd_error tail <> Some c_lpar -> hd_error tail <> Some c_lbr ->
    spelled ([c_lbr] ++ inside ++ [c_rbr] ++ tail) (Short inside)
| sp_empty : forall inside gap tail, paired inside -> blank_text gap -> ~ In c_rbr gap ->
    spelled ([c_lbr] ++ inside ++ [c_rbr; c_lbr] ++ gap ++ [c_rbr] ++ tail) (Empty inside)
| sp_full : forall inside label tail, paired inside -> ~ blank_text label -> ~ In c_rbr label ->
    spelled ([c_lbr] ++ inside ++ [c_rbr; c_lbr] ++ label ++ [c_rbr] ++ tail) (Full inside label).

(** White space as single spaces. *)
Definition respaced (s : str) : str := join [c_sp] (split_whitespace s).
(** U+0000 stands for a line ending that may move. *)
Definition unbroken (s : str) : str := map (fun c => if N.eqb c 0 then c_sp else c) s.
Definition external (url : str) : Prop := exists rest, url = lit "http://" ++ rest \/ url = lit "https://" ++ rest.
(** What follows the link begins with a bracket. *)
Definition bracket_follows (next : option node) : Prop :=
  exists m, next = Some m /\ match node_value m with NFootnoteReference _ | NLink _ _ | NImage _ _ => True | _ => False end.
Definition with_url (content url title : str) : str :=
  [c_lbr] ++ content ++ [c_rbr; c_lpar] ++ url ++ match title with [] => [] | _ => [c_sp; c_dq] ++ title ++ [c_dq] end ++ [c_rpar].

(** What is written for a link of one kind, [content] being what its content is
    written as, and the definition it needs.  [shown] is the text a reader of
    the link sees, [pictured] whether there is an image in it, [next] what
    follows. *)
Inductive link_style (content shown url title : str) (pictured : bool) (next : option node) : spelling -> str -> option reference -> Prop :=
(* A reference stays one: with the text and the label it had, the label left out
   if it is the text. *)
| ls_short : forall inside, pictured = false ->
    link_style content shown url title pictured next (Short inside)
      ([c_lbr] ++ respaced inside ++ [c_rbr]) (Some (mkRef (respaced inside) url title))
| ls_empty : forall inside, pictured = false ->
    link_style content shown url title pictured next (Empty inside)
      ([c_lbr] ++ respaced inside ++ [c_rbr; c_lbr; c_rbr]) (Some (mkRef (respaced inside) url title))
| ls_full : forall inside label, pictured = false -> respaced inside <> respaced label ->
    link_style content shown url title pictured next (Full inside label)
      ([c_lbr] ++ respaced inside ++ [c_rbr; c_lbr] ++ respaced label ++ [c_rbr]) (Some (mkRef (respaced label) url title))
| ls_same : forall inside label, pictured = false -> respaced inside = respaced label ->
    link_style content shown url title pictured next (Full inside label)
      ([c_lbr] ++ respaced inside ++ [c_rbr]) (Some (mkRef (respaced label) url title))
(* A link that is its own text. *)
| ls_angle : pictured = false -> title = [] -> shown = url ->
    link_style content shown url title pictured next WithUrl ([c_lt] ++ url ++ [c_gt]) None
(* External URLs become references: a shortcut, but collapsed where a bracket
   follows. *)
| ls_external : pictured = false -> title <> [] \/ shown <> url -> external url -> ~ bracket_follows next ->
    link_style content shown url title pictured next WithUrl
      ([c_lbr] ++ unbroken content ++ [c_rbr]) (Some (mkRef (unbroken content) url title))
| ls_collapsed : pictured = false -> title <> [] \/ shown <> url -> external url -> bracket_follows next ->
    link_style content shown url title pictured next WithUrl
      ([c_lbr] ++ unbroken content ++ [c_rbr; c_lbr; c_rbr]) (Some (mkRef (unbroken content) url title))
(* Relative URLs and fragments stay where they are. *)
| ls_relative : pictured = false -> title <> [] \/ shown <> url -> ~ external url ->
    link_style content shown url title pictured next WithUrl (with_url content url title) None
(* With an image in its text, a link stays what it is, external or not. *)
| ls_pictured_url : pictured = true ->
    link_style content shown url title pictured next WithUrl (with_url content url title) None
| ls_pictured_label : forall sp label, pictured = true ->
    match sp with Short i | Empty i => label = respaced i | Full _ l => label = respaced l | WithUrl => False end ->
    link_style content shown url title pictured next sp
      ([c_lbr] ++ content ++ [c_rbr; c_lbr] ++ label ++ [c_rbr]) (Some (mkRef label url title)).

(** [m] stands before [next] in the inline content of [n], not inside the text of
    another link. *)
Inductive stands (m : node) (next : option node) : node -> Prop :=
| st_here : forall v p a b, next = hd_error b -> stands m next (Node v p (a ++ m :: b))
| st_below : forall v p cs c, In c cs ->
    match node_value c with
    | NText _ | NSoftBreak | NLineBreak | NCode _ | NLink _ _ | NImage _ _ | NHtmlInline _ | NFootnoteReference _ => False
    | _ => True
    end ->
    stands m next c -> stands m next (Node v p cs).

(** There is an image directly in [n]. *)
Definition has_image (n : node) : bool :=
  if find (fun c => match node_value c with NImage _ _ => true | _ => false end) (node_children n) then true else false.
