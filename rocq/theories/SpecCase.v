(** What sentence case does (README.md 308-328, CHANGES.md 189-219 and 242-262,
    the comments of heading.rs), word by word.  Independent of tokens,
    placeholders and counters. *)
From Coq Require Import Bool Arith NArith String List.
From Verif Require Import Base.
Import ListNotations.

Section Case.
Variable U : Uni.
Variable PN : list (str * str).       (* the built-in nouns with their lower-case forms *)
Variables user common : list str.

Definition lower (s : str) : str := u_lower_str U s.
Definition letters (w : str) : str := filter (u_alpha U) w.
Definition capital_letter (c : char) : Prop := u_alpha U c = true /\ u_upper U c = true.

(** *** Words that stay as they are *)
(** All letters are capitals: emphasis. *)
Definition shouted (w : str) : Prop := letters w <> [] /\ Forall (fun c => u_upper U c = true) (letters w).
(** Two capitals to begin with, or letters with a period behind one of them. *)
Definition acronym (w : str) : Prop :=
  (exists a b r, w = a :: b :: r /\ capital_letter a /\ capital_letter b)
  \/ 2 <= List.length (letters w) /\ (exists c, In c w /\ capital_letter c)
     /\ exists a c b, w = a ++ [c; c_dot] ++ b /\ u_alpha U c = true.
(** The pronoun I, I'm, I've, ... *)
Inductive pronoun : str -> str -> Prop :=
| pronoun_alone : forall i, i = 105%N \/ i = 73%N -> pronoun [i] [73%N]
| pronoun_with : forall i q r, i = 105%N \/ i = 73%N -> q = c_sq \/ q = c_rsq ->
    pronoun (i :: q :: r) (73%N :: q :: map ascii_lower r).

(** *** Proper nouns *)
Definition first_of {A} (P : A -> Prop) (l : list A) (x : A) : Prop :=
  exists a b, l = a ++ x :: b /\ P x /\ Forall (fun y => ~ P y) a.
Definition possessive (s : str) : Prop := s = [c_sq; 115%N] \/ s = [c_rsq; 115%N].
(** A word is a core between punctuation; a possessive ending is none of it. *)
Definition dressed (w lead core trail poss : str) : Prop :=
  w = lead ++ core ++ trail ++ poss
  /\ Forall (fun c => u_alnum U c = false /\ c <> c_at) lead
  /\ (exists c r, core = c :: r /\ (u_alnum U c = true \/ c = c_at))
  /\ (exists r c, core = r ++ [c] /\ u_alnum U c = true)
  /\ Forall (fun c => u_alnum U c = false) trail
  /\ (possessive poss \/ poss = [] /\ forall p r, possessive p -> core ++ trail <> r ++ p).
(** How the core is spelled as a proper noun: as the user says, or as in the
    built-in list. *)
Definition is_common (core : str) : Prop := exists c, In c common /\ lower c = lower core.
Inductive known (core : str) : str -> Prop :=
| known_user : forall n, first_of (fun n => lower n = lower core) user n -> known core n
| known_list : forall p, (forall n, In n user -> lower n <> lower core) ->
    first_of (fun p => snd p = lower core) PN p -> known core (fst p).
Definition named (w w' : str) : Prop :=
  exists lead core trail poss n, dressed w lead core trail poss /\ (exists c, In c core /\ u_alpha U c = true)
    /\ ~ is_common core /\ known core n /\ w' = lead ++ n ++ trail ++ poss.

(** *** Words *)
Definition capital (w : str) : str := match w with [] => [] | c :: r => u_upper_chr U c ++ lower r end.
Inductive cased (first : bool) : str -> str -> Prop :=
| cased_nil : cased first [] []
| cased_kept : forall w, shouted w \/ acronym w -> cased first w w
| cased_pronoun : forall w w', ~ shouted w -> ~ acronym w -> pronoun w w' -> cased first w w'
| cased_noun : forall w w', ~ shouted w -> ~ acronym w -> (forall v, ~ pronoun w v) -> named w w' -> cased first w w'
| cased_plain : forall w, w <> [] -> ~ shouted w -> ~ acronym w -> (forall v, ~ pronoun w v) -> (forall v, ~ named w v) ->
    cased first w (if first then capital w else lower w).
(** Compounds: a noun, or part by part, the parts after the first in lower case. *)
Inductive parts_cased (first : bool) : list str -> list str -> Prop :=
| parts_one : forall p q ps qs, cased first p q -> Forall2 (cased false) ps qs -> parts_cased first (p :: ps) (q :: qs).
Definition joined_by (c : char) (w : str) (ps : list str) : Prop := w = join [c] ps /\ Forall (fun p => ~ In c p) ps.
Inductive word_cased (first : bool) : str -> str -> Prop :=
| word_plain : forall w w', ~ In c_dash w -> ~ In c_slash w -> cased first w w' -> word_cased first w w'
| word_named : forall w w', In c_dash w \/ In c_slash w -> named w w' -> word_cased first w w'
| word_hyphen : forall w ps qs, In c_dash w -> (forall v, ~ named w v) -> joined_by c_dash w ps -> parts_cased first ps qs ->
    word_cased first w (join [c_dash] qs)
| word_slash : forall w ps qs, ~ In c_dash w -> In c_slash w -> (forall v, ~ named w v) -> joined_by c_slash w ps ->
    parts_cased first ps qs -> word_cased first w (join [c_slash] qs).

(** *** Text *)
(** White space, delimiters and words. *)
Inductive chunk :=
| Gap (c : char)
| Stop (c : char)
| Word (w : str).
Definition delimiter (c : char) : Prop := In c [c_colon; c_semi; c_emdash; c_endash].
Definition in_word (c : char) : Prop := is_ws c = false /\ ~ delimiter c.
Inductive chunks : str -> list chunk -> Prop :=
| chunks_nil : chunks [] []
| chunks_gap : forall c s l, is_ws c = true -> chunks s l -> chunks (c :: s) (Gap c :: l)
| chunks_stop : forall c s l, is_ws c = false -> delimiter c -> chunks s l -> chunks (c :: s) (Stop c :: l)
| chunks_word : forall w s l, w <> [] -> Forall in_word w -> match l with Word _ :: _ => False | _ => True end ->
    chunks s l -> chunks (w ++ s) (Word w :: l).
(** [first]: no word has come yet; [after]: a delimiter has come behind the last
    word.  Words behind a delimiter keep a capital, unless another delimiter
    follows them. *)
Inductive spoken : bool -> bool -> list chunk -> str -> bool -> Prop :=
| spoken_nil : forall first behind, spoken first behind [] [] first
| spoken_gap : forall first behind c l out f, spoken first behind l out f -> spoken first behind (Gap c :: l) (c :: out) f
| spoken_stop : forall first behind c l out f, spoken first true l out f -> spoken first behind (Stop c :: l) (c :: out) f
| spoken_word : forall first behind w w' l out f,
    word_cased (first || match l with
                         | Stop _ :: _ => false
                         | _ => behind && match w with c :: _ => u_upper U c | [] => false end
                         end) w w' ->
    spoken false false l out f -> spoken first behind (Word w :: l) (w' ++ out) f.
(** Multi-word nouns are looked for in the text as a whole: where one stands
    alone, between other characters than letters and digits.  This part is not
    specified here: only texts in which none does. *)
Definition word_char (x : option char) : Prop := exists c, x = Some c /\ u_alnum U c = true.
Definition straight (s : str) : str := map (fun c => if N.eqb c 8217 then 39%N else c) s.
Definition unnamed (t : str) : Prop :=
  ~ In c_fffd t
  /\ forall n a b c, In n (map fst PN ++ user) -> In c_sp n -> ~ is_common n -> t = a ++ b ++ c ->
       List.length b = List.length (lower n) -> ~ word_char (hd_error (rev a)) -> ~ word_char (hd_error c) ->
       straight (lower b) <> straight (lower (lower n)).

(** *** Quotation marks *)
Definition a_letter (x : option char) : Prop := exists c, x = Some c /\ u_alpha U c = true.
Definition opens_after (x : option char) : Prop :=
  x = None \/ exists c, x = Some c /\ (is_ws c = true \/ c = c_lpar \/ c = c_lbr).
Definition decade (rest : str) : Prop :=
  exists a b r, rest = a :: b :: 115%N :: r /\ is_ascii_digit a = true /\ is_ascii_digit b = true.
(** An apostrophe: of a decade, inside a word, or behind one while no single
    quotation is open. *)
Definition apostrophe (prev : option char) (opened : bool) (rest : str) : Prop :=
  ~ word_char prev /\ decade rest
  \/ a_letter prev /\ a_letter (hd_error rest)
  \/ a_letter prev /\ opened = false /\ exists c, hd_error rest = Some c /\ is_ws c = true.
Definition opening (prev : option char) (rest : str) : Prop := opens_after prev /\ word_char (hd_error rest).
(** Straight marks of a text become curly ones, looking at both sides of them. *)
Inductive turned : option char -> bool -> str -> str -> Prop :=
| turned_nil : forall prev opened, turned prev opened [] []
| turned_other : forall prev opened c r out, c <> c_sq -> c <> c_dq -> turned (Some c) opened r out -> turned prev opened (c :: r) (c :: out)
| turned_apostrophe : forall prev opened r out, apostrophe prev opened r -> turned (Some c_sq) opened r out ->
    turned prev opened (c_sq :: r) (c_sq :: out)
| turned_left : forall prev opened r out, ~ apostrophe prev opened r -> opening prev r -> turned (Some c_sq) true r out ->
    turned prev opened (c_sq :: r) (c_lsq :: out)
| turned_right : forall prev opened r out, ~ apostrophe prev opened r -> ~ opening prev r -> turned (Some c_sq) false r out ->
    turned prev opened (c_sq :: r) (c_rsq :: out)
| turned_left2 : forall prev opened r out, opening prev r -> turned (Some c_dq) opened r out -> turned prev opened (c_dq :: r) (c_ldq :: out)
| turned_right2 : forall prev opened r out, ~ opening prev r -> turned (Some c_dq) opened r out -> turned prev opened (c_dq :: r) (c_rdq :: out).

(** *** Quotations *)
Inductive segment :=
| Plain (t : str)
| Quoted (double : bool) (q : str).
Definition left_mark (double : bool) : char := if double then c_ldq else c_lsq.
Definition right_mark (double : bool) : char := if double then c_rdq else c_rsq.
Definition plain (t : str) : list segment := match t with [] => [] | _ => [Plain t] end.
Definition unopened (t : str) : Prop := ~ In c_ldq t /\ ~ In c_lsq t.
Inductive cut : str -> list segment -> Prop :=
| cut_end : forall t, unopened t -> cut t (plain t)
| cut_quote : forall t d q r l, unopened t -> ~ In (right_mark d) q -> cut r l ->
    cut (t ++ [left_mark d] ++ q ++ [right_mark d] ++ r) (plain t ++ Quoted d q :: l)
| cut_open : forall t d q, unopened t -> ~ In (right_mark d) q ->
    cut (t ++ [left_mark d] ++ q) (plain t ++ [Plain (left_mark d :: q)]).
(** A quotation whose first letter is a capital is a sentence of its own;
    any other stays as it is. *)
Definition begins_capital (q : str) : Prop := exists c r, letters q = c :: r /\ u_upper U c = true.
Inductive said : bool -> bool -> list segment -> str -> bool -> Prop :=
| said_nil : forall inside first, said inside first [] [] first
| said_plain : forall inside first t l o f o2 f2, (unnamed t -> exists cs, chunks t cs /\ spoken first false cs o f) ->
    said inside f l o2 f2 -> said inside first (Plain t :: l) (o ++ o2) f2
| said_quote : forall inside first d q l o o2 f2, quoted d q o -> said inside (if inside then false else first) l o2 f2 ->
    said inside first (Quoted d q :: l) (o ++ o2) f2
with quoted : bool -> str -> str -> Prop :=
| quoted_kept : forall d q, ~ begins_capital q -> quoted d q (left_mark d :: q ++ [right_mark d])
| quoted_sentence : forall d q l o f, begins_capital q -> cut q l -> said true true l o f ->
    quoted d q (left_mark d :: o ++ [right_mark d]).

(** *** Headings: text and code, cut at backticks; code counts as a word. *)
Inductive sentence : bool -> list (bool * str) -> str -> Prop :=
| sentence_nil : forall first, sentence first [] []
| sentence_code : forall first x l out, sentence false l out -> sentence first ((true, x) :: l) (x ++ out)
| sentence_text : forall first t t' l o f l' out, turned None false t t' -> cut t' l -> said false first l o f ->
    sentence f l' out -> sentence first ((false, t) :: l') (o ++ out).
End Case.
