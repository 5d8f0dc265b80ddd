(** When sentence case of sentence case changes nothing (C52). *)
From Coq Require Import Bool Arith NArith String List.
From Verif Require Import Base SpecCase.
Import ListNotations.

(** Letters that have one lower-case form [lo] and one upper-case form [up], the
    same in every word.  Facts of the Unicode database for most alphabets; not
    for capital sharp s and the like, a final sigma or a dotted capital I. *)
Record simple_case (U : Uni) (lo up : char -> char) : Prop := {
  sc_lower : forall s, u_lower_str U s = map lo s;
  sc_upper : forall c, u_upper_chr U c = [up c];
  sc_lo_lo : forall c, lo (lo c) = lo c;
  sc_lo_up : forall c, lo (up c) = lo c;
  sc_up_up : forall c, up (up c) = up c;
  sc_lo_ascii : forall c, lo (ascii_lower c) = lo c;
  sc_alpha_lo : forall c, u_alpha U (lo c) = u_alpha U c;
  sc_alnum_lo : forall c, u_alnum U (lo c) = u_alnum U c;
  sc_capital : forall c, u_upper U c = true -> u_upper U (up c) = true;
  sc_small : forall c, u_upper U c = false -> u_upper U (lo c) = false;
  sc_fixed : forall c, u_alpha U c = false -> lo c = c /\ up c = c;
  sc_alnum : forall c, u_alpha U c = true -> u_alnum U c = true;
  sc_capital_letter : forall c, u_upper U c = true -> u_alpha U c = true;
  sc_space : forall c, is_ws c = true -> u_alpha U c = false;
  sc_digit : forall c, is_ascii_digit c = true -> u_alpha U c = false;
  sc_signs : forall c, In c [c_bt; c_sq; c_dq; c_lsq; c_rsq; c_ldq; c_rdq; c_dash; c_slash; c_dot; c_at; c_colon; c_semi; c_emdash; c_endash; c_fffd] ->
    u_alpha U c = false /\ u_alnum U c = false;
  sc_s : u_alpha U 115%N = true /\ lo 115%N = 115%N;
  sc_only_s : forall c, lo c = lo 115%N -> c = 115%N \/ c = 83%N;
  sc_only_i : forall c, lo c = lo 105%N -> c = 105%N \/ c = 73%N
}.

Section Steady.
Variable U : Uni.
Variable PN : list (str * str).
Variables user common : list str.

(** The built-in list holds lower-case forms; no noun is the letter S, or ends
    like a possessive. *)
Definition listed : Prop := Forall (fun p => snd p = u_lower_str U (fst p)) PN.
Definition apostrophe_mark (q : char) : Prop := q = c_sq \/ q = c_rsq.
Definition settled_nouns : Prop := forall n, In n (map fst PN ++ user) ->
  n <> [83%N] /\ forall r q c, apostrophe_mark q -> c = 115%N \/ c = 83%N -> n <> r ++ [q; c].

(** No apostrophe before a capital S (as in "Github'S") or a decade. *)
Definition no_capital_s (t : str) : Prop := forall a q b, apostrophe_mark q -> t <> a ++ q :: 83%N :: b.
Definition no_decade (t : str) : Prop := forall a b, t = a ++ c_sq :: b -> ~ decade b.
(** No noun of several words, whatever quotation marks are in it, unless it
    begins inside a word or something goes on behind it. *)
Definition iron (c : char) : char :=
  if existsb (N.eqb c) [c_lsq; c_rsq] then c_sq else if existsb (N.eqb c) [c_ldq; c_rdq] then c_dq else c.
Definition no_long_noun (t : str) : Prop :=
  forall n a b c, In n (map fst PN ++ user) -> In c_sp n -> ~ is_common U common n -> t = a ++ b ++ c ->
    List.length b = List.length (u_lower_str U n) -> ~ (word_char U (hd_error (rev a)) /\ word_char U (hd_error b)) -> ~ word_char U (hd_error c) ->
    map iron (u_lower_str U b) <> map iron (u_lower_str U (u_lower_str U n)).
Definition settled_text (t : str) : Prop := ~ In c_fffd t /\ no_capital_s t /\ no_decade t /\ no_long_noun t.
End Steady.
