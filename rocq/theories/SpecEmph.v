(** Independent specification of how a CommonMark reader reads the inline
    content of a paragraph (CommonMark 6, and the algorithm of its appendix):
    code spans, emphasis with its delimiter runs and delimiter stack, links and
    images with their brackets and definitions, autolinks; and references to
    footnotes.  Raw HTML is recognised by a parameter.  U+0000, which no
    Markdown text contains, counts as white space.  Nothing here refers to the
    model of hongdown. *)
From Coq Require Import Bool Arith NArith List.
From Verif Require Import Base SpecInline SpecText.
Import ListNotations.

(** What is read. *)
Inductive inl :=
| Chr (c : char)
| Cod (s : str)
| Em (l : list inl)
| St (l : list inl)
| Lnk (image : bool) (l : list inl) (url title : str)
| Raw (s : str)                             (* raw HTML *)
| Fn (name : str).                          (* a reference to a footnote *)

Definition is_mark (c : char) : bool := ceq c c_star || ceq c c_us.

Section Reader.
(** The named entities, Unicode whitespace and Unicode punctuation. *)
Variable ENT : str -> option str.
Variables space punct : char -> bool.
(** The link definitions (URL and title of a label), the footnotes, and what
    else begins with the '<' before a text, with its length: raw HTML and mail
    addresses. *)
Variable defs : str -> option (str * str).
Variable notes : str -> bool.
Variable raw : str -> option (inl * nat).

(** ** Delimiter runs.  The beginning and the end of the text count as
    whitespace. *)
Definition blank (x : option char) : bool := match x with Some c => space c | None => true end.
Definition dotted (x : option char) : bool := match x with Some c => punct c | None => false end.
Definition left_flanking (before after : option char) : bool :=
  negb (blank after) && (negb (dotted after) || blank before || dotted before).
Definition right_flanking (before after : option char) : bool :=
  negb (blank before) && (negb (dotted before) || blank after || dotted after).
Definition can_open (c : char) (before after : option char) : bool :=
  left_flanking before after
  && (negb (ceq c c_us) || negb (right_flanking before after) || dotted before).
Definition can_close (c : char) (before after : option char) : bool :=
  right_flanking before after
  && (negb (ceq c c_us) || negb (left_flanking before after) || dotted after).

Inductive token :=
| TText (p : piece)
| TCode (s : str)
| TRun (c : char) (n : nat) (opens closes : bool)
| TInl (i : inl).

Definition last_of (s : str) (otherwise : option char) : option char :=
  match rev s with c :: _ => Some c | [] => otherwise end.

(** ** The stack, last entry first: what is read already, and runs that may
    still open emphasis ([n] characters are left of [orig]). *)
Inductive entry :=
| Done (i : inl)
| Open (c : char) (n orig : nat) (closes : bool).

Definition literally (e : entry) : list inl :=
  match e with Done i => [i] | Open c n _ _ => repeat (Chr c) n end.
(** Rules 9 and 10: a run that can both open and close only pairs with a run
    such that the sum of the lengths is not a multiple of three, unless both
    are. *)
Definition pairs (o1 o2 : nat) (both : bool) : bool :=
  negb both || negb ((o1 + o2) mod 3 =? 0) || ((o1 mod 3 =? 0) && (o2 mod 3 =? 0)).
Fixpoint opener (c : char) (orig : nat) (opens : bool) (inner : list inl) (st : list entry)
  : option (list inl * (nat * nat * bool) * list entry) :=
  match st with
  | [] => None
  | Done i :: r => opener c orig opens (i :: inner) r
  | Open c' n o closes :: r =>
      if ceq c c' && pairs o orig (closes || opens) then Some (inner, (n, o, closes), r)
      else opener c orig opens (repeat (Chr c') n ++ inner) r
  end.
Fixpoint close (fuel : nat) (c : char) (m orig : nat) (opens : bool) (st : list entry) : nat * list entry :=
  match fuel with
  | 0 => (m, st)
  | S k =>
      if m =? 0 then (m, st)
      else
        match opener c orig opens [] st with
        | None => (m, st)
        | Some (inner, (n, o, closes), r) =>
            let strong := (2 <=? n) && (2 <=? m) in
            let j := if strong then 2 else 1 in
            let i := if strong then St inner else Em inner in
            close k c (m - j) orig opens
              (Done i :: (if n - j =? 0 then r else Open c (n - j) o closes :: r))
        end
  end.
Definition step (st : list entry) (t : token) : list entry :=
  match t with
  | TText p => rev (map (fun c => Done (Chr c)) (meaning p)) ++ st
  | TCode s => Done (Cod s) :: st
  | TInl i => Done i :: st
  | TRun c n opens closes =>
      let (m, st) := if closes then close n c n n opens st else (n, st) in
      if m =? 0 then st
      else if opens then Open c m n closes :: st
      else repeat (Done (Chr c)) m ++ st
  end.
(** Emphasis in a text without brackets. *)
Definition emphasis (ts : list token) : list inl := flat_map literally (rev (fold_left step ts [])).

(** ** Links (6.3): what follows the closing bracket *)
Definition gap (c : char) : bool := ceq c c_sp || ceq c c_tab || ceq c c_nl || ceq c c_cr || ceq c c_nul.
(** A destination without angle brackets; [depth] parentheses are open. *)
Definition bare (c : char) : bool := ((32 <? c) && negb (c =? 127))%N.
Fixpoint destination (depth : nat) (s : str) : str * str :=
  match s with
  | [] => ([], [])
  | c :: r =>
      if ceq c c_bs then
        match r with
        | d :: r' =>
            if is_ascii_punct d then let (a, b) := destination depth r' in (c :: d :: a, b)
            else let (a, b) := destination depth r in (c :: a, b)
        | [] => ([c], [])
        end
      else if ceq c c_lpar then let (a, b) := destination (S depth) r in (c :: a, b)
      else if ceq c c_rpar then
        match depth with
        | 0 => ([], s)
        | S k => let (a, b) := destination k r in (c :: a, b)
        end
      else if bare c then let (a, b) := destination depth r in (c :: a, b)
      else ([], s)
  end.
(** Up to [close], which a backslash hides; [never] must not occur. *)
Fixpoint delimited (close : char) (never : char -> bool) (s : str) : option (str * str) :=
  match s with
  | [] => None
  | c :: r =>
      if ceq c c_bs then
        match r with
        | d :: r' =>
            match delimited close never r' with Some (a, b) => Some (c :: d :: a, b) | None => None end
        | [] => None
        end
      else if ceq c close then Some ([], r)
      else if never c then None
      else match delimited close never r with Some (a, b) => Some (c :: a, b) | None => None end
  end.
Definition title_at (s : str) : option (str * str) :=
  match s with
  | c :: r =>
      if ceq c c_dq || ceq c c_sq then delimited c (fun _ => false) r
      else if ceq c c_lpar then delimited c_rpar (ceq c_lpar) r
      else None
  | [] => None
  end.
(** [(url "title")] *)
Definition inline_tail (s : str) : option (str * str * str) :=
  match s with
  | c :: r =>
      if ceq c c_lpar then
        let r1 := drop_while gap r in
        match (match r1 with
               | d :: r2 => if ceq d c_lt then delimited c_gt (fun x => ceq x c_lt || ceq x c_nl || ceq x c_cr || ceq x c_nul) r2
                            else Some (destination 0 r1)
               | [] => None
               end) with
        | None => None
        | Some (url, r3) =>
            let r4 := drop_while gap r3 in
            match (if length r4 <? length r3 then title_at r4 else None) with
            | Some (title, r5) =>
                match drop_while gap r5 with
                | e :: r6 => if ceq e c_rpar then Some (read_text ENT url, read_text ENT title, r6) else None
                | [] => None
                end
            | None =>
                match r4 with
                | e :: r6 => if ceq e c_rpar then Some (read_text ENT url, [], r6) else None
                | [] => None
                end
            end
        end
      else None
  | [] => None
  end.
(** A label: no bracket in it that is not escaped, and not only white space. *)
Definition label_at (s : str) : option (str * str) := delimited c_rbr (ceq c_lbr) s.
Definition is_label (l : str) : bool :=
  match label_at (l ++ [c_rbr]) with Some (_, []) => negb (forallb gap l) | _ => false end.
Definition defined (l : str) : option (str * str) := if is_label l then defs l else None.
(** What makes the brackets around [inside], followed by [s], a link. *)
Definition link_tail (inside s : str) : option (str * str * str) :=
  match inline_tail s with
  | Some x => Some x
  | None =>
      match (match s with c :: r => if ceq c c_lbr then label_at r else None | [] => None end) with
      | Some (l, rest) =>
          match defined (if is_nil l then inside else l) with
          | Some (url, title) => Some (url, title, rest)
          | None => None
          end
      | None =>
          match defined inside with
          | Some (url, title) => Some (url, title, s)
          | None => None
          end
      end
  end.
(** [<https://example.com>] after the angle bracket (6.5). *)
Definition autolink_at (s : str) : option (str * str) :=
  let scheme := take_while (fun c => is_ascii_alnum c || ceq c c_plus || ceq c c_dot || ceq c c_dash) s in
  match scheme, skipn (length scheme) s with
  | a :: _, c :: r =>
      if is_ascii_alnum a && negb (is_ascii_digit a) && (2 <=? length scheme) && (length scheme <=? 32) && ceq c c_colon then
        let body := take_while (fun c => bare c && negb (ceq c c_lt) && negb (ceq c c_gt)) r in
        match skipn (length body) r with
        | e :: rest => if ceq e c_gt then Some (scheme ++ c :: body, rest) else None
        | [] => None
        end
      else None
  | _, _ => None
  end.

(** ** Brackets.  A frame is an open bracket: the text after it, the tokens
    before it (last first), and whether it may still begin a link. *)
Record frame := Frame { f_image : bool; f_active : bool; f_from : str; f_before : list token }.
(** A link contains no link. *)
Definition rest_of (fs : list frame) (image : bool) : list frame :=
  if image then fs
  else map (fun f => if f_image f then f else Frame (f_image f) false (f_from f) (f_before f)) fs.
Definition bracket (image : bool) : list token :=
  TText (Plain c_lbr) :: (if image then [TText (Plain c_bang)] else []).

Fixpoint scan (fuel : nat) (before : option char) (s : str) (cur : list token) (fs : list frame) : list token :=
  match fuel, s with
  | S k, c :: r =>
      if is_mark c then
        let n := length (take_while (ceq c) s) in
        let rest := skipn n s in
        scan k (Some c) rest
          (TRun c n (can_open c before (hd_error rest)) (can_close c before (hd_error rest)) :: cur) fs
      else if ceq c c_bt then
        match parse_code_span s with
        | Some (content, rest) => scan k (Some c_bt) rest (TCode content :: cur) fs
        | None =>
            let n := count_ticks s in
            scan k (Some c_bt) (skipn n s) (repeat (TText (Plain c_bt)) n ++ cur) fs
        end
      else if ceq c c_lt then
        match autolink_at r with
        | Some (url, rest) => scan k (Some c_gt) rest (TInl (Lnk false (map Chr url) url []) :: cur) fs
        | None =>
            match raw r with
            | Some (i, n) => scan k (Some c_gt) (skipn n r) (TInl i :: cur) fs
            | None => scan k (Some c) r (TText (Plain c) :: cur) fs
            end
        end
      else if ceq c c_lbr then scan k (Some c) r [] (Frame false true r cur :: fs)
      else if ceq c c_bang && starts_with [c_lbr] r then scan k (Some c_lbr) (tl r) [] (Frame true true (tl r) cur :: fs)
      else if ceq c c_rbr then
        match fs with
        | [] => scan k (Some c) r (TText (Plain c) :: cur) fs
        | f :: fs' =>
            let inside := firstn (length (f_from f) - length s) (f_from f) in
            match (if f_active f then link_tail inside r else None) with
            | Some (url, title, rest) =>
                scan k (last_of (firstn (length r - length rest) r) (Some c)) rest
                  (TInl (Lnk (f_image f) (emphasis (rev cur)) url title) :: f_before f) (rest_of fs' (f_image f))
            | None =>
                match (if f_active f && negb (f_image f) then strip_prefix [c_caret] inside else None) with
                | Some name =>
                    if notes name then scan k (Some c) r (TInl (Fn name) :: f_before f) fs'
                    else scan k (Some c) r (TText (Plain c) :: cur ++ bracket (f_image f) ++ f_before f) fs'
                | None => scan k (Some c) r (TText (Plain c) :: cur ++ bracket (f_image f) ++ f_before f) fs'
                end
            end
        end
      else
        let p := first_piece ENT c r in
        scan k (last_of (spelling p) before) (skipn (length (spelling p)) s) (TText p :: cur) fs
  | _, _ => fold_left (fun ts f => rev (f_before f) ++ rev (bracket (f_image f)) ++ ts) fs (rev cur)
  end.
Definition read_inlines (s : str) : list inl := emphasis (scan (length s) None s [] []).

(** ** Layouts: text in pieces, line endings, code spans, marked contents, links
    and images, and what stands between angle brackets. *)
Inductive how :=
| Inline (url title : str)
| ByLabel (label : str)
| Collapsed
| Shortcut.
Inductive lay :=
| LText (ps : list piece)
| LBreak (c : char)
| LCode (spelled content : str)
| LMark (strong : bool) (c : char) (body : list lay)
| LLink (image : bool) (body : list lay) (h : how) (url title : str)
| LAngle (spelled : str) (i : inl)
| LNote (name : str).

Definition mark (strong : bool) (c : char) : str := if strong then [c; c] else [c].
Definition opening_bracket (image : bool) : str := if image then [c_bang; c_lbr] else [c_lbr].
Definition spell_how (h : how) : str :=
  match h with
  | Inline url title => [c_lpar] ++ url ++ (if is_nil title then [] else [c_sp; c_dq] ++ title ++ [c_dq]) ++ [c_rpar]
  | ByLabel l => [c_lbr] ++ l ++ [c_rbr]
  | Collapsed => [c_lbr; c_rbr]
  | Shortcut => []
  end.
Fixpoint spell1 (l : lay) : str :=
  match l with
  | LText ps => flat_map spelling ps
  | LBreak c => [c]
  | LCode s _ => s
  | LMark b c body => mark b c ++ flat_map spell1 body ++ mark b c
  | LLink image body h _ _ => opening_bracket image ++ flat_map spell1 body ++ [c_rbr] ++ spell_how h
  | LAngle s _ => [c_lt] ++ s ++ [c_gt]
  | LNote name => [c_lbr; c_caret] ++ name ++ [c_rbr]
  end.
Definition spell (l : list lay) : str := flat_map spell1 l.
Fixpoint contents1 (l : lay) : list inl :=
  match l with
  | LText ps => map Chr (flat_map meaning ps)
  | LBreak c => [Chr c]
  | LCode _ s => [Cod s]
  | LMark b _ body => [(if b then St else Em) (flat_map contents1 body)]
  | LLink image body _ url title => [Lnk image (flat_map contents1 body) url title]
  | LAngle _ i => [i]
  | LNote name => [Fn name]
  end.
Definition contents (l : list lay) : list inl := flat_map contents1 l.

(** Text without marks, backticks and backslashes that are not escaped. *)
Definition plain_text (ps : list piece) : Prop :=
  pieces ENT (flat_map spelling ps) = ps /\ forall c, special c = true -> ~ In (Plain c) ps.
(** Text without brackets that are not escaped; '<' stands before white space
    only. *)
Fixpoint less_free (ps : list piece) : Prop :=
  match ps with
  | Plain c :: r =>
      (c = c_lt -> match r with Plain d :: _ => gap d = true | _ => False end) /\ less_free r
  | _ :: r => less_free r
  | [] => True
  end.
Definition bracket_free (ps : list piece) : Prop :=
  ~ In (Plain c_lbr) ps /\ ~ In (Plain c_rbr) ps /\ less_free ps.
Definition continues_reference (c : char) : bool := is_ascii_alnum c || ceq c c_hash || ceq c c_semi.
Definition code_span (spelled content : str) : Prop :=
  (exists s, spelled = c_bt :: s ++ [c_bt])
  /\ forall rest, hd_error rest <> Some c_bt -> parse_code_span (spelled ++ rest) = Some (content, rest).
Definition next (s : str) (after : option char) : option char :=
  match s with c :: _ => Some c | [] => after end.
(** A destination and a title that are read as they are written. *)
Definition url_reads (u : str) : Prop :=
  u <> [] /\ hd_error u <> Some c_lt
  /\ destination 0 (u ++ [c_rpar]) = (u, [c_rpar]) /\ read_text ENT u = u.
Definition title_reads (t : str) : Prop :=
  delimited c_dq (fun _ => false) (t ++ [c_dq]) = Some (t, []) /\ read_text ENT t = t.
Definition how_reads (inside : str) (h : how) (url title : str) (after : option char) : Prop :=
  match h with
  | Inline u t => u = url /\ t = title /\ url_reads url /\ (title <> [] -> title_reads title)
  | ByLabel l => l <> [] /\ label_at (l ++ [c_rbr]) = Some (l, []) /\ defined l = Some (url, title)
  | Collapsed => defined inside = Some (url, title)
  | Shortcut => defined inside = Some (url, title) /\ after <> Some c_lpar /\ after <> Some c_lbr
  end.
Fixpoint linkless1 (l : lay) : Prop :=
  match l with
  | LMark _ _ body => (fix all (ls : list lay) : Prop := match ls with [] => True | x :: r => linkless1 x /\ all r end) body
  | LLink image body _ _ _ =>
      image = true /\ (fix all (ls : list lay) : Prop := match ls with [] => True | x :: r => linkless1 x /\ all r end) body
  | _ => True
  end.
Definition linkless (ls : list lay) : Prop := Forall linkless1 ls.

(** [placed]: between the characters [before] and [after], inside the marks
    [around], every mark stands where it can be what it is, and not next to the
    same character, and an opening mark that could also close is not inside a
    mark of the same kind; text has no brackets, and no '!' before a bracket;
    links lead where they should and contain no links; the rest is
    recognised. *)
Definition mark_placed (around : list (bool * char)) (strong : bool) (c : char) (inner : str)
    (before after : option char) : Prop :=
  can_open c before (next inner (Some c)) = true
  /\ (can_close c before (next inner (Some c)) = true -> ~ In (strong, c) around)
  /\ next inner (Some c) <> Some c
  /\ can_close c (last_of inner (Some c)) after = true /\ after <> Some c.
Definition angle_reads (s : str) (i : inl) : Prop :=
  i = Lnk false (map Chr s) s [] /\ (forall rest, autolink_at (s ++ [c_gt] ++ rest) = Some (s, rest))
  \/ forall rest, autolink_at (s ++ [c_gt] ++ rest) = None /\ raw (s ++ [c_gt] ++ rest) = Some (i, S (length s)).
Definition note_reads (name : str) (after : option char) : Prop :=
  notes name = true /\ after <> Some c_lpar /\ after <> Some c_lbr /\ defined (c_caret :: name) = None
  /\ Forall (fun c => existsb (ceq c) [c_bt; c_bs; c_amp; c_lt; c_lbr; c_rbr; c_bang] = false) name.
Fixpoint placed1 (around : list (bool * char)) (l : lay) (before after : option char) {struct l} : Prop :=
  match l with
  | LText ps => bracket_free ps /\ (last_of (flat_map spelling ps) None = Some c_bang -> after <> Some c_lbr)
  | LBreak _ | LCode _ _ => True
  | LMark strong c body =>
      mark_placed around strong c (flat_map spell1 body) before after
      /\ (fix all (before : option char) (ls : list lay) : Prop :=
            match ls with
            | [] => True
            | x :: r => placed1 ((strong, c) :: around) x before (next (flat_map spell1 r) (Some c))
                        /\ all (last_of (spell1 x) before) r
            end) (Some c) body
  | LLink image body h url title =>
      how_reads (flat_map spell1 body) h url title after /\ (image = false -> linkless body)
      /\ (fix all (before : option char) (ls : list lay) : Prop :=
            match ls with
            | [] => True
            | x :: r => placed1 [] x before (next (flat_map spell1 r) (Some c_rbr)) /\ all (last_of (spell1 x) before) r
            end) (Some c_lbr) body
  | LAngle s i => angle_reads s i
  | LNote name => note_reads name after
  end.
Fixpoint placed (around : list (bool * char)) (before : option char) (ls : list lay) (after : option char) : Prop :=
  match ls with
  | [] => True
  | x :: r => placed1 around x before (next (spell r) after) /\ placed around (last_of (spell1 x) before) r after
  end.

(** [sound]: text is text, followed by no character that could continue it;
    code spans are code spans, followed by no backtick. *)
Fixpoint sound1 (l : lay) (after : option char) {struct l} : Prop :=
  match l with
  | LText ps => plain_text ps /\ forall c, after = Some c -> continues_reference c = false
  | LBreak c => gap c = true
  | LCode s content => code_span s content /\ after <> Some c_bt
  | LMark _ c body =>
      is_mark c = true
      /\ (fix all (ls : list lay) : Prop :=
            match ls with
            | [] => True
            | x :: r => sound1 x (next (flat_map spell1 r) (Some c)) /\ all r
            end) body
  | LLink _ body _ _ _ =>
      (fix all (ls : list lay) : Prop :=
         match ls with
         | [] => True
         | x :: r => sound1 x (next (flat_map spell1 r) (Some c_rbr)) /\ all r
         end) body
  | LAngle _ i => match i with Lnk _ _ _ _ | Raw _ => True | _ => False end
  | LNote _ => True
  end.
Fixpoint sound (ls : list lay) (after : option char) : Prop :=
  match ls with
  | [] => True
  | x :: r => sound1 x (next (spell r) after) /\ sound r after
  end.
End Reader.
