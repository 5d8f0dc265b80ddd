(** Independent vocabulary for directives, source positions, emphasis and the
    order of definition sections. *)
From Coq Require Import Bool Arith NArith String List Sorted Permutation.
From Verif Require Import Base AstModel StateModel.
Import ListNotations.

Definition ws (s : str) : Prop := Forall (fun c => is_ws c = true) s.

(** [t] is [s] without the white space around it. *)
Definition core (s t : str) : Prop :=
  exists a b, s = a ++ t ++ b /\ ws a /\ ws b
    /\ (forall c r, t = c :: r -> is_ws c = false)
    /\ (forall r c, t = r ++ [c] -> is_ws c = false).

(** An HTML block that is one comment, and the comment's body. *)
Definition comment_body (html body : str) : Prop :=
  exists inner, core html (lit "<!--" ++ inner ++ lit "-->") /\ core inner body.

(** The entries of a comma separated list: trimmed, empty ones dropped. *)
Definition noun_list (args : str) (nouns : list str) : Prop :=
  exists pieces cores,
    args = join [c_comma] pieces /\ pieces <> []
    /\ Forall (fun p => ~ In c_comma p) pieces
    /\ Forall2 core pieces cores
    /\ nouns = filter (fun s => negb (is_nil s)) cores.

(** The documented directives (README.md, "Disabling formatting" and
    "Heading sentence case"). *)
Inductive directive_form : str -> directive -> Prop :=
| df_next_line : directive_form (lit "hongdown-disable-next-line") DisableNextLine
| df_file : directive_form (lit "hongdown-disable-file") DisableFile
| df_next_section : directive_form (lit "hongdown-disable-next-section") DisableNextSection
| df_disable : directive_form (lit "hongdown-disable") Disable
| df_enable : directive_form (lit "hongdown-enable") Enable
| df_proper : forall args nouns, noun_list args nouns ->
    directive_form (lit "hongdown-proper-nouns:" ++ args) (ProperNouns nouns)
| df_common : forall args nouns, noun_list args nouns ->
    directive_form (lit "hongdown-common-nouns:" ++ args) (CommonNouns nouns).

(** Where one is after reading [s] from the start of a text: 1-based line and
    number of bytes read on that line. *)
Fixpoint advance (line col : nat) (s : str) : nat * nat :=
  match s with
  | [] => (line, col)
  | c :: r => if N.eqb c 10 then advance (S line) 0 r else advance line (col + utf8_len c) r
  end.
Definition cursor (s : str) : nat * nat := advance 1 0 s.

(** [s] is the part of [text] from position [p]'s start to its end, both
    inclusive (columns count bytes from 1). *)
Definition spans (text : str) (p : sourcepos) (s : str) : Prop :=
  exists before after,
    text = before ++ s ++ after
    /\ 1 <= start_col p
    /\ cursor before = (start_line p, start_col p - 1)
    /\ cursor (before ++ s) = (end_line p, end_col p).

(** A text node below (or at) [n] contains the character [c]. *)
Inductive has_text (c : char) : node -> Prop :=
| ht_text : forall t p cs, In c t -> has_text c (Node (NText t) p cs)
| ht_child : forall v p cs n, (forall t, v <> NText t) -> In n cs -> has_text c n ->
    has_text c (Node v p cs).

(** Value of a string of decimal digits. *)
Inductive digits : str -> N -> Prop :=
| dg_one : forall d, (48 <= d <= 57)%N -> digits [d] (d - 48)
| dg_snoc : forall s n d, digits s n -> (48 <= d <= 57)%N -> digits (s ++ [d]) (10 * n + (d - 48)).

(** A numeric name: digits (Rust's parser also takes a plus sign) whose value
    fits in 64 bits.  A numeric label may start with '#'. *)
Definition numeric_name (s : str) (n : N) : Prop :=
  exists ds, (s = ds \/ s = [c_plus] ++ ds) /\ digits ds n /\ (n < 2 ^ 64)%N.
Definition numeric_label (s : str) (n : N) : Prop :=
  numeric_name s n \/ exists r, s = [c_hash] ++ r /\ numeric_name r n.

(** The order of a section of definitions; [num x n]: [x] is numbered [n]. *)
Definition in_order {A} (num : A -> N -> Prop) (l : list A) : Prop :=
  StronglySorted (fun x y => forall m n, num x m -> num y n -> (m <= n)%N) l.
Inductive selects {A} (P : A -> Prop) : list A -> list A -> Prop :=
| sel_nil : selects P [] []
| sel_take : forall x l m, P x -> selects P l m -> selects P (x :: l) (x :: m)
| sel_skip : forall x l m, ~ P x -> selects P l m -> selects P (x :: l) m.
Definition section_order {A} (num : A -> N -> Prop) (l out : list A) : Prop :=
  exists numbered plain,
    selects (fun x => exists n, num x n) l numbered
    /\ selects (fun x => forall n, ~ num x n) l plain
    /\ (List.length numbered <= 1 -> out = l)
    /\ (2 <= List.length numbered ->
         exists sorted, out = plain ++ sorted /\ Permutation numbered sorted /\ in_order num sorted
           /\ forall n same, selects (fun x => num x n) numbered same -> selects (fun x => num x n) sorted same).

(** Each element once, at its first occurrence. *)
Fixpoint first_occurrences (l : list str) : list str :=
  match l with
  | [] => []
  | x :: r => x :: filter (fun y => negb (seqb y x)) (first_occurrences r)
  end.

(** The line defining a reference.  U+0000 marks a line ending in a label. *)
Definition definition_line (r : reference) : str :=
  [c_lbr] ++ map (fun c => if N.eqb c 0 then c_sp else c) (ref_label r) ++ [c_rbr; c_colon; c_sp] ++ ref_url r
  ++ match ref_title r with [] => [] | t => [c_sp; c_dq] ++ t ++ [c_dq] end ++ [c_nl].

(** What separates a section of definitions from what is before it. *)
Definition separates (before sep : str) : Prop :=
  (sep = [] /\ exists x, before = x ++ [c_nl; c_nl])
  \/ (sep = [c_nl] /\ exists x, before = x ++ [c_nl] /\ forall y, x <> y ++ [c_nl])
  \/ (sep = [c_nl; c_nl] /\ forall x, before <> x ++ [c_nl]).
