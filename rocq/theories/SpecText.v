(** Independent specification of how a CommonMark reader reads the text of a
    paragraph: backslash escapes (CommonMark 2.4) and entity and numeric
    character references (CommonMark 2.5).  Nothing here refers to the model
    of hongdown. *)
From Coq Require Import Bool Arith NArith List.
From Verif Require Import Base.
Import ListNotations.

(** The smallest unit of text. *)
Inductive piece :=
| Plain (c : char)                          (* the character itself *)
| Escaped (c : char)                        (* a backslash and the character *)
| Reference (spelling meaning : str).       (* [&name;] or [&#digits;] *)

Definition spelling (p : piece) : str :=
  match p with
  | Plain c => [c]
  | Escaped c => [c_bs; c]
  | Reference s _ => s
  end.
Definition meaning (p : piece) : str :=
  match p with
  | Plain c | Escaped c => [c]
  | Reference _ m => m
  end.

(** Numbers. *)
Definition decimal (c : char) : option N :=
  if ((48 <=? c) && (c <=? 57))%N then Some (c - 48)%N else None.
Definition hexadecimal (c : char) : option N :=
  if ((48 <=? c) && (c <=? 57))%N then Some (c - 48)%N
  else if ((65 <=? c) && (c <=? 70))%N then Some (c - 65 + 10)%N
  else if ((97 <=? c) && (c <=? 102))%N then Some (c - 97 + 10)%N
  else None.
Definition is_digit_of (digit : char -> option N) (c : char) : bool :=
  match digit c with Some _ => true | None => false end.
Definition number_of (base : N) (digit : char -> option N) (s : str) : N :=
  fold_left (fun v c => match digit c with Some d => v * base + d | None => v end)%N s 0%N.
(** Zero, surrogates and numbers above U+10FFFF become U+FFFD. *)
Definition char_of_number (v : N) : char :=
  if ((0 <? v) && (v <? 55296) || (57343 <? v) && (v <? 1114112))%N then v else c_fffd.

(** [numeric prefix base digit most s]: between one and [most] digits and a
    semicolon at the start of [s]. *)
Definition numeric (prefix : str) (base : N) (digit : char -> option N) (most : nat) (s : str)
  : option (str * str) :=
  let ds := take_while (is_digit_of digit) s in
  if (1 <=? length ds) && (length ds <=? most) then
    match skipn (length ds) s with
    | e :: _ => if ceq e c_semi then Some (prefix ++ ds ++ [c_semi], [char_of_number (number_of base digit ds)])
                else None
    | [] => None
    end
  else None.

Section Read.
(** The table of named entities: the name without '&' and ';', the text. *)
Variable ENT : str -> option str.

Definition named (s : str) : option (str * str) :=
  let name := take_while is_ascii_alnum s in
  match skipn (length name) s with
  | e :: _ =>
      if ceq e c_semi then
        match ENT name with Some m => Some (name ++ [c_semi], m) | None => None end
      else None
  | [] => None
  end.

(** The reference whose '&' stands before [s]: the rest of its spelling, and
    its meaning. *)
Definition reference_after (s : str) : option (str * str) :=
  match s with
  | h :: r =>
      if ceq h c_hash then
        match r with
        | x :: r' =>
            if ceq x 120%N || ceq x 88%N then numeric [h; x] 16 hexadecimal 6 r'
            else numeric [h] 10 decimal 7 r
        | [] => None
        end
      else named s
  | [] => None
  end.

Definition first_piece (c : char) (r : str) : piece :=
  if ceq c c_bs then
    match r with
    | d :: _ => if is_ascii_punct d then Escaped d else Plain c
    | [] => Plain c
    end
  else if ceq c c_amp then
    match reference_after r with
    | Some (s, m) => Reference (c :: s) m
    | None => Plain c
    end
  else Plain c.

(** The pieces of a text; the fuel [length s] is enough. *)
Fixpoint pieces_fuel (n : nat) (s : str) : list piece :=
  match n, s with
  | S k, c :: r =>
      let p := first_piece c r in
      p :: pieces_fuel k (skipn (length (spelling p)) s)
  | _, _ => []
  end.
Definition pieces (s : str) : list piece := pieces_fuel (length s) s.

(** The text a reader sees. *)
Definition read_text (s : str) : str := flat_map meaning (pieces s).
End Read.

(** The four characters hongdown always escapes. *)
Definition special (c : char) : bool := ceq c c_star || ceq c c_us || ceq c c_bt || ceq c c_bs.

(** A reference hongdown can follow: short, and standing for one character
    other than U+FFFD. *)
Definition ordinary (p : piece) : Prop :=
  match p with
  | Reference s m => length s <= 12 /\ exists d, m = [d] /\ d <> c_fffd
  | _ => True
  end.
(** No '&' that is plain text stands before a '#'. *)
Fixpoint no_loose_number (l : list piece) : Prop :=
  match l with
  | Plain a :: r =>
      match r with
      | Plain b :: _ => ~ (a = c_amp /\ b = c_hash)
      | _ => True
      end /\ no_loose_number r
  | _ :: r => no_loose_number r
  | [] => True
  end.
(** The escapes of the source that hongdown keeps. *)
Definition special_escape (p : piece) : Prop :=
  match p with Escaped c => special c = true | _ => True end.
