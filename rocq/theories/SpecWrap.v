(** Independent specification of line wrapping. *)
From Coq Require Import Bool Arith NArith String List.
From Verif Require Import Base.
Import ListNotations.

(** Marks: U+0000 stands for a line ending of the source inside a paragraph,
    a line feed for a hard line break. *)
Definition soft : char := 0%N.

(** Visible characters of a text. *)
Definition nonws (s : str) : str := filter (fun c => negb (is_ws c || ceq c soft)) s.
(** Words of a text: maximal pieces without white space. *)
Definition words (s : str) : list str := split_whitespace (map (fun c => if ceq c soft then c_sp else c) s).

(** What a display width must satisfy: white space at the end of a text does
    not make it narrower, and widths add up across a space. *)
Definition width_laws (U : Uni) : Prop :=
  u_width U [] = 0
  /\ (forall a b, Forall (fun c => is_ws c = true) b -> u_width U a <= u_width U (a ++ b))
  /\ (forall a b, u_width U (a ++ c_sp :: b) = u_width U a + 1 + u_width U b).

(** A prefix whose width adds up with what follows it. *)
Definition spaced (p : str) : Prop := p = [] \/ exists q, p = q ++ [c_sp].

(** Where a line may be broken: at a space outside code spans and brackets.
    State: inside backticks, bracket depth. *)
Definition unit_step (st : bool * nat) (c : char) : bool * nat :=
  let '(bt, d) := st in
  if ceq c c_bt && (d =? 0) then (negb bt, d)
  else if bt then st
  else if ceq c c_lbr then (bt, S d)
  else if ceq c c_rbr then (bt, Nat.pred d)
  else st.
Definition unbreakable (s : str) : Prop :=
  forall a b, s = a ++ c_sp :: b -> fold_left unit_step a (false, 0) <> (false, 0).

(** A body holding a single unbreakable unit (and the spaces after it). *)
Definition single_unit (b : str) : Prop :=
  exists tok sps, b = tok ++ sps /\ unbreakable tok /\ Forall (fun c => c = c_sp) sps.

Definition blank (s : str) : Prop := Forall (fun c => is_ws c = true) s.

(** A line [l] shows [body] after [prefix]: nothing but trailing white space
    may be missing. *)
Definition shows (prefix body l : str) : Prop := exists w, blank w /\ prefix ++ body = l ++ w.

(** A written line: prefix, body, and the line itself. *)
Definition wline := (str * str * str)%type.
Definition wl_p (x : wline) : str := fst (fst x).
Definition wl_b (x : wline) : str := snd (fst x).
Definition wl_t (x : wline) : str := snd x.

(** It shows its body after its prefix, and is within the width unless its
    body is a single unit. *)
Definition line_ok (U : Uni) (lw : nat) (x : wline) : Prop :=
  shows (wl_p x) (wl_b x) (wl_t x) /\ (u_width U (wl_t x) <= lw \/ single_unit (wl_b x)).

(** The pieces of a text between hard breaks, and the source lines of a piece. *)
Definition segments (t : str) : list str := split_on c_nl t.
Definition soft_lines (s : str) : list str := split_on soft s.
Definition no_lead (s : str) : Prop := forall r, s <> c_sp :: r.
(** What paragraphs consist of: no blank source line, no leading space. *)
Definition clean_segment (s : str) : Prop := no_lead s /\ Forall (fun l => ~ blank l) (soft_lines s).

(** Lines of one piece, and pieces joined by hard breaks (two spaces, line feed). *)
Definition render_piece (ls : list str) : str := join [c_nl] ls.
Definition render_text (ps : list (list str)) : str := join [c_sp; c_sp; c_nl] (map render_piece ps).

(** Number of lines followed by a hard break. *)
Definition count_hard_breaks (out : str) : nat :=
  List.length (filter (ends_with [c_sp; c_sp]) (removelast (split_on c_nl out))).

(** [L] lays out the piece [s] with prefixes [ps]: visible characters kept in
    order, and for clean pieces the words. *)
Definition lays_out (ok : str -> Prop) (s : str) (L : list wline) : Prop :=
  L <> [] /\ Forall (fun x => ok (wl_p x) /\ shows (wl_p x) (wl_b x) (wl_t x)) L
  /\ nonws (concat (map wl_b L)) = nonws s
  /\ (clean_segment s -> concat (map words (map wl_b L)) = words s).

(** A source line that is neither blank nor surrounded by white space. *)
Definition trimmed (l : str) : Prop := trim l = l /\ l <> [].

(** No word begins with white space other than a space: no-break spaces and
    the like stand inside words.  [prev]: a word has begun. *)
Fixpoint steady (prev : bool) (s : str) : Prop :=
  match s with
  | [] => True
  | c :: r => (is_ws c = true -> c = c_sp \/ c = c_nl \/ prev = true)
              /\ steady (negb (ceq c c_sp || ceq c c_nl || ceq c soft)) r
  end.
