(** Independent vocabulary for headings: what a code span is at the level of
    single backticks, what "the same letters" means, and how a written heading
    is read back. *)
From Coq Require Import Bool Arith NArith List.
From Verif Require Import Base.
Import ListNotations.

(** Cut a text at backticks: text, code span, text, ...  Code pieces carry
    their backticks; a backtick without partner starts a last code piece. *)
Fixpoint code_pieces (in_code : bool) (cur : str) (s : str) : list (bool * str) :=
  match s with
  | [] => [(in_code, rev cur)]
  | c :: r =>
      if N.eqb c 96 then
        if in_code then (true, rev (c :: cur)) :: code_pieces false [] r
        else (false, rev cur) :: code_pieces true [c] r
      else code_pieces in_code (c :: cur) r
  end.
Definition pieces (s : str) : list (bool * str) := code_pieces false [] s.

(** An observer who cannot tell upper from lower case, nor straight from
    curly quotation marks, under the case mappings of [U]: [see c] is what is
    observed of character [c].  Unicode full case folding followed by
    straightening of quotation marks is such an observer. *)
Record case_blind (U : Uni) (see : char -> str) : Prop := {
  cb_lower : forall s, flat_map see (u_lower_str U s) = flat_map see s;
  cb_upper : forall c, flat_map see (u_upper_chr U c) = see c;
  cb_ascii : forall c, (65 <= c <= 90)%N -> see (c + 32)%N = see c;
  cb_lsq : see 8216%N = see 39%N;
  cb_rsq : see 8217%N = see 39%N;
  cb_ldq : see 8220%N = see 34%N;
  cb_rdq : see 8221%N = see 34%N
}.

(** Facts of the Unicode database that the code relies on: spaces, digits and
    U+FFFD have no case, digits are alphanumeric but no letters, U+FFFD is
    neither. *)
Record caseless_laws (U : Uni) : Prop := {
  cl_space : forall s, In c_sp s -> In c_sp (u_lower_str U s);
  cl_fffd : forall s, In c_fffd s <-> In c_fffd (u_lower_str U s);
  cl_fffd_upper : forall c, In c_fffd (u_upper_chr U c) -> c = c_fffd;
  cl_digits : forall s, Forall (fun c => is_ascii_digit c = true) s -> u_lower_str U s = s;
  cl_digit_alnum : forall c, is_ascii_digit c = true -> u_alnum U c = true /\ u_alpha U c = false;
  cl_fffd_alnum : u_alnum U c_fffd = false
}.

(** A noun table: keys are the lowercase canonical forms (build.rs 31-35), and
    no noun contains U+FFFD. *)
Definition noun_table (U : Uni) (PN : list (str * str)) (user : list str) : Prop :=
  Forall (fun p => snd p = u_lower_str U (fst p) /\ ~ In c_fffd (fst p)) PN
  /\ Forall (fun n => ~ In c_fffd n) user.

(** CommonMark 4.2: an ATX heading line starts with 1-6 '#' followed by a
    space, a tab or the end of the line.  The result is the level and the rest
    of the line. *)
Fixpoint count_hashes (s : str) : nat * str :=
  match s with
  | c :: r => if N.eqb c 35 then let '(n, t) := count_hashes r in (S n, t) else (0, s)
  | [] => (0, [])
  end.
Definition read_atx (line : str) : option (nat * str) :=
  let '(n, t) := count_hashes line in
  if (1 <=? n) && (n <=? 6) then
    match t with
    | [] => Some (n, [])
    | c :: r => if N.eqb c 32 || N.eqb c 9 then Some (n, r) else None
    end
  else None.

(** CommonMark 4.3: a setext underline is a non-empty run of '=' (level 1) or
    of '-' (level 2). *)
Definition read_underline (line : str) : option nat :=
  match line with
  | [] => None
  | c :: r =>
      if N.eqb c 61 && forallb (N.eqb 61) r then Some 1
      else if N.eqb c 45 && forallb (N.eqb 45) r then Some 2
      else None
  end.
