(** Strings, characters and the pieces of Rust's [str] API used by hongdown.

    Modelling choices: a [char] is its Unicode scalar value ([N]); a [&str] or
    [String] is a list of scalar values.  Byte offsets are recovered with
    [utf8_len].  [usize] values are [nat]. *)
From Coq Require DecimalString.
From Coq Require Import Bool Arith NArith Ascii String Lia List.
Import ListNotations.

Definition char := N.
Definition str := list char.

(** ASCII string literals. *)
Definition lit (s : string) : str := map N_of_ascii (list_ascii_of_string s).

Definition ch (c : ascii) : char := N_of_ascii c.

(** Named characters. *)
Definition c_nul : char := 0%N.
Definition c_soh : char := 1%N.
Definition c_tab : char := 9%N.
Definition c_nl : char := 10%N.
Definition c_cr : char := 13%N.
Definition c_sp : char := 32%N.
Definition c_bang : char := 33%N.
Definition c_dq : char := 34%N.
Definition c_hash : char := 35%N.
Definition c_amp : char := 38%N.
Definition c_sq : char := 39%N.
Definition c_lpar : char := 40%N.
Definition c_rpar : char := 41%N.
Definition c_star : char := 42%N.
Definition c_plus : char := 43%N.
Definition c_comma : char := 44%N.
Definition c_dash : char := 45%N.
Definition c_dot : char := 46%N.
Definition c_slash : char := 47%N.
Definition c_colon : char := 58%N.
Definition c_semi : char := 59%N.
Definition c_lt : char := 60%N.
Definition c_eq : char := 61%N.
Definition c_gt : char := 62%N.
Definition c_quest : char := 63%N.
Definition c_at : char := 64%N.
Definition c_lbr : char := 91%N.
Definition c_bs : char := 92%N.
Definition c_rbr : char := 93%N.
Definition c_caret : char := 94%N.
Definition c_us : char := 95%N.
Definition c_bt : char := 96%N.
Definition c_lcur : char := 123%N.
Definition c_pipe : char := 124%N.
Definition c_rcur : char := 125%N.
Definition c_tilde : char := 126%N.
Definition c_endash : char := 8211%N.
Definition c_emdash : char := 8212%N.
Definition c_lsq : char := 8216%N.
Definition c_rsq : char := 8217%N.
Definition c_ldq : char := 8220%N.
Definition c_rdq : char := 8221%N.
Definition c_ellipsis : char := 8230%N.
Definition c_fffd : char := 65533%N.

Definition ceq (a b : char) : bool := N.eqb a b.

(** Equality of strings ([==] on [str]). *)
Fixpoint seqb (a b : str) : bool :=
  match a, b with
  | [], [] => true
  | x :: a', y :: b' => ceq x y && seqb a' b'
  | _, _ => false
  end.

Definition is_nil {A} (l : list A) : bool := match l with [] => true | _ => false end.

(** [char::is_whitespace]: the Unicode [White_Space] property (closed list). *)
Definition is_ws (c : char) : bool :=
  ((9 <=? c) && (c <=? 13) || (c =? 32) || (c =? 133) || (c =? 160) || (c =? 5760)
   || (8192 <=? c) && (c <=? 8202) || (c =? 8232) || (c =? 8233) || (c =? 8239)
   || (c =? 8287) || (c =? 12288))%N.

(** [char::is_ascii_digit], [is_ascii_graphic], [is_ascii_punctuation],
    [is_ascii_alphanumeric]. *)
Definition is_ascii_digit (c : char) : bool := ((48 <=? c) && (c <=? 57))%N.
Definition is_ascii_graphic (c : char) : bool := ((33 <=? c) && (c <=? 126))%N.
Definition is_ascii_upper (c : char) : bool := ((65 <=? c) && (c <=? 90))%N.
Definition is_ascii_lower (c : char) : bool := ((97 <=? c) && (c <=? 122))%N.
Definition is_ascii_alnum (c : char) : bool :=
  is_ascii_digit c || is_ascii_upper c || is_ascii_lower c.
Definition is_ascii_punct (c : char) : bool :=
  is_ascii_graphic c && negb (is_ascii_alnum c).

(** [char::to_ascii_lowercase], [eq_ignore_ascii_case]. *)
Definition ascii_lower (c : char) : char := if is_ascii_upper c then (c + 32)%N else c.
Definition eq_ignore_ascii_case (a b : char) : bool := ceq (ascii_lower a) (ascii_lower b).

(** UTF-8 length of a scalar value and of a string ([str::len]). *)
Definition utf8_len (c : char) : nat :=
  if (c <? 128)%N then 1 else if (c <? 2048)%N then 2 else if (c <? 65536)%N then 3 else 4.
Definition byte_len (s : str) : nat := fold_right (fun c n => utf8_len c + n) 0 s.

(** [str::trim_start], [trim_end], [trim]. *)
Fixpoint drop_while (p : char -> bool) (s : str) : str :=
  match s with [] => [] | c :: r => if p c then drop_while p r else s end.
Fixpoint take_while (p : char -> bool) (s : str) : str :=
  match s with [] => [] | c :: r => if p c then c :: take_while p r else [] end.
Definition drop_while_end (p : char -> bool) (s : str) : str := rev (drop_while p (rev s)).
Definition trim_start (s : str) : str := drop_while is_ws s.
Definition trim_end (s : str) : str := drop_while_end is_ws s.
Definition trim (s : str) : str := trim_end (trim_start s).

(** [str::split(char)]: always at least one piece. *)
Fixpoint split_on (c : char) (s : str) : list str :=
  match s with
  | [] => [[]]
  | x :: r =>
      if ceq x c then [] :: split_on c r
      else match split_on c r with
           | [] => [[x]]
           | p :: ps => (x :: p) :: ps
           end
  end.

(** [str::split_whitespace]: maximal whitespace-free pieces. *)
Fixpoint split_ws_aux (cur : str) (s : str) : list str :=
  match s with
  | [] => if is_nil cur then [] else [rev cur]
  | x :: r =>
      if is_ws x then (if is_nil cur then split_ws_aux [] r else rev cur :: split_ws_aux [] r)
      else split_ws_aux (x :: cur) r
  end.
Definition split_whitespace (s : str) : list str := split_ws_aux [] s.

(** [slice::join] / [Vec<&str>::join]. *)
Fixpoint join (sep : str) (l : list str) : str :=
  match l with
  | [] => []
  | [x] => x
  | x :: r => x ++ sep ++ join sep r
  end.

(** [str::lines]: pieces terminated by "\n" or "\r\n"; a final piece without
    "\n" is returned as is when non-empty. *)
Definition strip_cr (s : str) : str :=
  match rev s with
  | c :: r => if ceq c c_cr then rev r else s
  | [] => s
  end.
Fixpoint lines_aux (cur : str) (s : str) : list str :=
  match s with
  | [] => if is_nil cur then [] else [rev cur]
  | x :: r => if ceq x c_nl then strip_cr (rev cur) :: lines_aux [] r else lines_aux (x :: cur) r
  end.
Definition lines (s : str) : list str := lines_aux [] s.

(** [str::starts_with], [strip_prefix], [ends_with], [strip_suffix]. *)
Fixpoint strip_prefix (p s : str) : option str :=
  match p, s with
  | [], _ => Some s
  | a :: p', b :: s' => if ceq a b then strip_prefix p' s' else None
  | _ :: _, [] => None
  end.
Definition starts_with (p s : str) : bool :=
  match strip_prefix p s with Some _ => true | None => false end.
Definition strip_suffix (p s : str) : option str :=
  match strip_prefix (rev p) (rev s) with Some r => Some (rev r) | None => None end.
Definition ends_with (p s : str) : bool :=
  match strip_suffix p s with Some _ => true | None => false end.

(** [str::find(&str)], as a number of characters before the match;
    [str::contains]. *)
Fixpoint find_sub (p s : str) : option nat :=
  if starts_with p s then Some 0
  else match s with
       | [] => None
       | _ :: r => match find_sub p r with Some n => Some (S n) | None => None end
       end.
Definition contains_sub (p s : str) : bool :=
  match find_sub p s with Some _ => true | None => false end.
Definition contains_char (c : char) (s : str) : bool := existsb (ceq c) s.

(** [str::replace(char, &str)] for a single character. *)
Definition replace_char (c : char) (by_ : str) (s : str) : str :=
  flat_map (fun x => if ceq x c then by_ else [x]) s.

(** [str::replace(&str, &str)]: leftmost non-overlapping matches.  [fuel]
    bounds the number of scanned positions; [length s] always suffices. *)
Fixpoint replace_sub_fuel (fuel : nat) (p by_ s : str) : str :=
  match fuel with
  | 0 => s
  | S k =>
      match s with
      | [] => []
      | c :: r =>
          match strip_prefix p s with
          | Some rest => by_ ++ replace_sub_fuel k p by_ rest
          | None => c :: replace_sub_fuel k p by_ r
          end
      end
  end.
Definition replace_sub (p by_ s : str) : str := replace_sub_fuel (List.length s) p by_ s.

(** ["x".repeat(n)]. *)
Definition repc (c : char) (n : nat) : str := repeat c n.
Definition spaces (n : nat) : str := repc c_sp n.

(** [usize::to_string]. *)
Definition dec (n : nat) : str := lit (DecimalString.NilZero.string_of_uint (Nat.to_uint n)).

(** [str::parse::<uN>]: optional leading '+', then at least one digit, value
    bounded by [max]. *)
Fixpoint digits_val (acc : N) (s : str) : option N :=
  match s with
  | [] => Some acc
  | c :: r => if is_ascii_digit c then digits_val (acc * 10 + (c - 48))%N r else None
  end.
Definition parse_uint (max : N) (s : str) : option N :=
  let body := match s with c :: r => if ceq c c_plus then r else s | [] => s end in
  match body with
  | [] => None
  | _ => match digits_val 0%N body with
         | Some v => if (v <=? max)%N then Some v else None
         | None => None
         end
  end.
Definition u64_max : N := 18446744073709551615%N.
Definition u32_max : N := 4294967295%N.

(** The Unicode facts that are not modelled concretely: character classes,
    case mappings and display width are oracles. *)
Record Uni := mkUni {
  u_alpha : char -> bool;          (* char::is_alphabetic *)
  u_alnum : char -> bool;          (* char::is_alphanumeric *)
  u_upper : char -> bool;          (* char::is_uppercase *)
  u_lower_str : str -> str;        (* str::to_lowercase *)
  u_upper_chr : char -> str;       (* char::to_uppercase *)
  u_width : str -> nat             (* UnicodeWidthStr::width *)
}.

(** A concrete ASCII-only instance, used in examples. *)
Definition ascii_is_alpha (c : char) : bool := is_ascii_upper c || is_ascii_lower c.
Definition ascii_upper (c : char) : char := if is_ascii_lower c then (c - 32)%N else c.
Definition uni_ascii : Uni := {|
  u_alpha := ascii_is_alpha;
  u_alnum := is_ascii_alnum;
  u_upper := is_ascii_upper;
  u_lower_str := map ascii_lower;
  u_upper_chr := fun c => [ascii_upper c];
  u_width := fun s => List.length s
|}.
