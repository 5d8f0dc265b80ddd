(** Independent reader for the blocks of a CommonMark document (CommonMark
    0.31, chapters 3 to 5, with the extensions hongdown enables: alerts, task
    lists, footnotes, tables, description lists, front matter).  Nothing here
    refers to the model of hongdown.

    The reader is cautious: where a line could belong to a construct that is
    not described here (scripts and tags that are not on the list of 4.6,
    tables without outer pipes, several details of one term, tabs as
    indentation, lazy continuation lines) it gives up, so a result means the text has these
    blocks and no others.  Whether a list is tight is not observed. *)
From Coq Require Import Bool Arith NArith String List.
From Verif Require Import Base SpecCode SpecHeading SpecRefs SpecWrap TableModel SpecTable.
From Verif Require SpecInline.
Import ListNotations.

(** The marker of a list item. *)
Inductive marker :=
| BulletOf (c : char)
| NumberOf (digits : str) (delimiter : char).
Definition same_kind (a b : marker) : bool :=
  match a, b with
  | BulletOf c, BulletOf d => ceq c d
  | NumberOf _ c, NumberOf _ d => ceq c d
  | _, _ => false
  end.

Inductive block :=
| Para (pieces : list (list str))           (* the words between hard line breaks *)
| Head (level : nat) (text : str)
| Code (info : str) (body : list str)
| Verbatim (body : list str)                (* indented code *)
| Rule
| Quote (bs : list block)
| Alert (name : str) (bs : list block)
| List (m : marker) (items : list (option bool * list block))    (* the box of a task, the content *)
| Table (columns : list alignment) (rows : list (list str))      (* the header first *)
| Html (ls : list str)
| Foot (name : str) (bs : list block)                            (* a footnote *)
| Define (label url title : str)                                 (* a link definition *)
| Describe (entries : list (list (list str) * list block)).      (* terms with their details *)

(** ** Lines *)
(** The line without its indentation of up to three spaces. *)
Definition margin (l : str) : option str :=
  match fence_indent l with
  | Some (_, c :: r) => if ceq c c_tab then None else Some (c :: r)
  | _ => None
  end.

(** Thematic breaks (4.1). *)
Definition rule_of (m : char) (s : str) : bool :=
  forallb (fun c => ceq c m || is_blank_char c) s && (3 <=? List.length (filter (ceq m) s)).
Definition is_rule (s : str) : bool := rule_of c_star s || rule_of c_dash s || rule_of c_us s.

(** The text of an ATX heading without its closing sequence (4.2). *)
Definition atx_text (t : str) : str :=
  let t1 := trim_blank t in
  let t2 := drop_while_end (ceq c_hash) t1 in
  match rev t2 with
  | [] => []
  | c :: _ => if is_blank_char c then trim_blank t2 else t1
  end.
(** A setext underline may have blanks after it (4.3). *)
Definition underline (s : str) : option nat := read_underline (drop_while_end is_blank_char s).

(** List markers (5.2): followed by a blank or the end of the line.  The
    result is the marker and what follows it. *)
Definition is_bullet (c : char) : bool := ceq c c_dash || ceq c c_plus || ceq c c_star.
Definition blank_or_end (r : str) : bool := match r with [] => true | c :: _ => is_blank_char c end.
Definition marker_of (s : str) : option (marker * str) :=
  match s with
  | c :: r =>
      if is_bullet c then (if blank_or_end r then Some (BulletOf c, r) else None)
      else
        let ds := take_while is_ascii_digit s in
        match skipn (List.length ds) s with
        | d :: r' =>
            if (1 <=? List.length ds) && (List.length ds <=? 9) && (ceq d c_dot || ceq d c_rpar) && blank_or_end r'
            then Some (NumberOf ds d, r') else None
        | [] => None
        end
  | [] => None
  end.
Definition is_one (ds : str) : bool := match drop_while (ceq 48%N) ds with [d] => ceq d 49%N | _ => false end.
(** The first line of an item: marker, column of the content, content.  An
    item that begins with indented code is not read. *)
Definition item_line (l : str) : option (marker * nat * str) :=
  match margin l with
  | None => None
  | Some s =>
      if is_rule s then None
      else match marker_of s with
           | None => None
           | Some (m, r) =>
               let before := List.length l - List.length r in
               if is_blank r then Some (m, before + 1, [])
               else let n := run_len c_sp r in
                    if (1 <=? n) && (n <=? 4) && negb (is_blank_char (hd c_tab (skipn n r)))
                    then Some (m, before + n, skipn n r) else None
           end
  end.

(** A line that may begin an HTML block (4.6). *)
Definition tag_char (c : char) : bool := is_ascii_alnum c || ceq c c_dash.
Definition html_line (s : str) : bool :=
  match s with
  | a :: r =>
      ceq a c_lt &&
      match r with
      | b :: r' =>
          if ceq b c_bang || ceq b 63%N then true
          else
            let name := if ceq b c_slash then r' else r in
            let n := List.length (take_while tag_char name) in
            (1 <=? n) &&
            match skipn n name with
            | [] => true
            | e :: _ => is_blank_char e || ceq e c_gt || ceq e c_slash
            end
      | [] => false
      end
  | [] => false
  end.
(** What ends the HTML block that begins with the line: a comment ends with the
    line that holds its end, a block with a tag of this list before a blank
    line. *)
Definition html_tags : list str := map lit
  ["address"; "article"; "aside"; "base"; "basefont"; "blockquote"; "body"; "caption"; "center"; "col"; "colgroup"; "dd"; "details";
   "dialog"; "dir"; "div"; "dl"; "dt"; "fieldset"; "figcaption"; "figure"; "footer"; "form"; "frame"; "frameset";
   "h1"; "h2"; "h3"; "h4"; "h5"; "h6"; "head"; "header"; "hr"; "html"; "iframe"; "legend"; "li"; "link"; "main"; "menu"; "menuitem";
   "nav"; "noframes"; "ol"; "optgroup"; "option"; "p"; "param"; "search"; "section"; "summary"; "table"; "tbody"; "td"; "tfoot"; "th";
   "thead"; "title"; "tr"; "track"; "ul"]%string.
Inductive html_sort := Comment | Tag | Other_html.
Definition tag_name (s : str) : str := take_while is_ascii_alnum s.
Definition html_sort_of (s : str) : html_sort :=
  if starts_with (lit "<!--") s then Comment
  else
    let name := match s with _ :: b :: r => if ceq b c_slash then r else b :: r | _ => [] end in
    let n := tag_name name in
    if existsb (seqb (map ascii_lower n)) html_tags
    then match skipn (List.length n) name with
         | [] => Tag
         | e :: r => if is_blank_char e || ceq e c_gt || (ceq e c_slash && starts_with [c_gt] r) then Tag else Other_html
         end
    else Other_html.
Definition comment_ends (l : str) : bool := contains_sub (lit "-->") l.
Definition comment_block (ls : list str) : bool :=
  match margin (hd [] ls) with Some s => match html_sort_of s with Comment => true | _ => false end | None => false end.
(** Details of a description list. *)
Definition details_line (s : str) : bool :=
  match s with c :: r => (ceq c c_colon || ceq c c_tilde) && blank_or_end r | [] => false end.
(** The first line of details that stand behind a colon and spaces: the column
    of their text, and the text. *)
Definition details_head (l : str) : option (nat * str) :=
  match margin l with
  | Some (c :: r) =>
      let n := run_len c_sp r in
      if ceq c c_colon && (1 <=? n) && negb (is_blank_char (hd c_tab (skipn n r)))
      then Some (List.length l - List.length r + n, skipn n r) else None
  | _ => None
  end.
(** The details the lines begin with, after blank lines. *)
Fixpoint details_next (ls : list str) : option (nat * str * list str) :=
  match ls with
  | [] => None
  | l :: r => if is_blank l then details_next r
              else match details_head l with Some (w, content) => Some (w, content, r) | None => None end
  end.
(** The delimiter row of a table. *)
Definition delimiter_row (s : str) : bool :=
  forallb (fun c => ceq c c_dash || ceq c c_colon || ceq c c_pipe || is_blank_char c) s && contains_char c_dash s.
Definition defines (l : str) : bool := contains_sub [c_rbr; c_colon] l.
(** A line that may begin a footnote. *)
Definition note_line (s : str) : bool := starts_with (lit "[^") s && defines s.
(** The name of the footnote that begins with the line, and its first line. *)
Definition note_head (s : str) : option (str * str) :=
  if starts_with (lit "[^") s then
    let r := skipn 2 s in
    let n := take_while (fun c => negb (ceq c c_rbr || is_blank_char c)) r in
    match n, skipn (List.length n) r with
    | _ :: _, a :: b :: r' => if ceq a c_rbr && ceq b c_colon then Some (n, drop_while is_blank_char r') else None
    | _, _ => None
    end
  else None.
Definition strange (s : str) : bool := html_line s || details_line s || note_line s.
Definition starts_quote (s : str) : bool := match s with c :: _ => ceq c c_gt | [] => false end.
Definition is_some {A} (x : option A) : bool := match x with Some _ => true | None => false end.

(** What ends a paragraph: among list items only those with content, and
    numbered ones only from 1. *)
Definition interrupts (s : str) : bool :=
  is_some (opening_fence s) || is_rule s || is_some (read_atx s) || starts_quote s
  || match marker_of s with
     | Some (BulletOf _, r) => negb (is_blank r)
     | Some (NumberOf ds _, r) => is_one ds && negb (is_blank r)
     | None => false
     end.

(** ** Paragraphs (4.8) *)
Definition add_line (l : str) (x : option (list str * option nat * list str)) : option (list str * option nat * list str) :=
  match x with Some (ls, u, rest) => Some (l :: ls, u, rest) | None => None end.
(** The lines that continue a paragraph, the level if an underline follows,
    and the remaining lines. *)
Fixpoint continuation (ls : list str) : option (list str * option nat * list str) :=
  match ls with
  | [] => Some ([], None, [])
  | l :: r =>
      if is_blank l then Some ([], None, ls)
      else match margin l with
           | None => add_line l (continuation r)
           | Some s =>
               match underline s with
               | Some level => Some ([], Some level, r)
               | None =>
                   if is_some (details_head l) then Some ([], None, ls)
                   else if strange s || delimiter_row s then None
                   else if interrupts s then Some ([], None, ls)
                   else add_line l (continuation r)
               end
           end
  end.
(** Hard line breaks (6.7). *)
Definition odd_backslashes (l : str) : bool := Nat.odd (run_len c_bs (rev l)).
Definition breaks (l : str) : bool := ends_with [c_sp; c_sp] l || odd_backslashes l.
Definition line_text (l : str) : str := if odd_backslashes l then removelast l else l.
Fixpoint line_pieces (ls : list str) : list (list str) :=
  match ls with
  | [] => []
  | [l] => [split_whitespace l]
  | l :: r =>
      if breaks l then split_whitespace (line_text l) :: line_pieces r
      else match line_pieces r with
           | p :: ps => (split_whitespace l ++ p) :: ps
           | [] => []
           end
  end.

(** ** Containers (5.1, 5.2) *)
Definition add_to {A B} (a : A) (x : option (list A * B)) : option (list A * B) :=
  match x with Some (l, b) => Some (a :: l, b) | None => None end.
(** A line that begins a block, so that it is not a lazy continuation line. *)
Definition closes (l : str) : bool :=
  match margin l with
  | Some s => is_some (opening_fence s) || is_rule s || is_some (read_atx s) || starts_quote s || is_some (marker_of s)
  | None => false
  end.
(** Tabs after the indentation: columns are not computed here. *)
Definition tabbed (l : str) : bool := match skipn (run_len c_sp l) l with c :: _ => ceq c c_tab | [] => false end.
Fixpoint quote_span (ls : list str) : option (list str * list str) :=
  match ls with
  | [] => Some ([], [])
  | l :: r =>
      match strip_quote l with
      | Some x => if tabbed x then None else add_to x (quote_span r)
      | None => if is_blank l || closes l then Some ([], ls) else None
      end
  end.
Definition alert_names : list str :=
  [lit "NOTE"; lit "TIP"; lit "IMPORTANT"; lit "WARNING"; lit "CAUTION"].
(** What the first line of a quote says about it. *)
Inductive quote_sort := Plain_quote | Alert_of (name : str) | Unknown_quote.
Definition quote_sort_of (l : str) : quote_sort :=
  if starts_with (lit "[!") l then
    match find (fun a => seqb l (lit "[!" ++ a ++ lit "]")) alert_names with
    | Some a => Alert_of a
    | None => match skipn 2 l with c :: _ => if is_ascii_upper c || is_ascii_lower c then Unknown_quote else Plain_quote | [] => Plain_quote end
    end
  else Plain_quote.

(** The lines of an item whose content starts in column [w].  Columns of tabs
    in the content are the same counted from the content if [w] is a tab stop. *)
Definition misaligned (w : nat) (l : str) : bool := tabbed l && negb ((w mod 4 =? 0) && (w <=? run_len c_sp l)).
Fixpoint item_span (w : nat) (after_blank : bool) (ls : list str) : option (list str * list str) :=
  match ls with
  | [] => Some ([], [])
  | l :: r =>
      if misaligned w l && negb (is_blank l) then None
      else match strip_item w l with
           | Some x => add_to x (item_span w (is_blank l) r)
           | None => if after_blank || is_some (item_line l) || closes l then Some ([], ls) else None
           end
  end.
(** An item without content on its first line is not followed by content. *)
Definition item_lines (w : nat) (content : str) (r : list str) : option (list str * list str) :=
  if is_blank content then
    match r with
    | [] => Some ([], [])
    | l :: _ => if is_blank l || is_some (item_line l) then Some ([], r) else None
    end
  else add_to content (item_span w false r).
(** The box of a task. *)
Definition task_box (s : str) : option (option bool * str) :=
  match s with
  | a :: b :: c :: r =>
      if ceq a c_lbr && ceq c c_rbr && (ceq b c_sp || ceq b 120%N || ceq b 88%N) && blank_or_end r then
        match r with
        | d :: r' => if ceq d c_sp && negb (is_blank_char (hd c_tab r')) then Some (Some (negb (ceq b c_sp)), r') else None
        | [] => None
        end
      else Some (None, s)
  | _ => Some (None, s)
  end.
Definition first_box (ls : list str) : option (option bool * list str) :=
  match ls with
  | [] => Some (None, [])
  | l :: r => match task_box l with Some (b, l') => Some (b, l' :: r) | None => None end
  end.
(** The marker of the item the lines begin with, after blank lines. *)
Fixpoint next_item (ls : list str) : option marker :=
  match ls with
  | [] => None
  | l :: r => if is_blank l then next_item r
              else match item_line l with Some (m, _, _) => Some m | None => None end
  end.
Definition add_item (m : marker) (item : option bool * list block) (rest : list str) (bs : list block) : list block :=
  match next_item rest, bs with
  | Some m', List _ items :: bs' => if same_kind m m' then List m (item :: items) :: bs' else List m [item] :: bs
  | _, _ => List m [item] :: bs
  end.

(** Terms with details one after the other make one list.  Link definitions
    between them do not count, and are not read there. *)
Fixpoint entries_ahead (bs : list block) : bool :=
  match bs with
  | Define _ _ _ :: r => entries_ahead r
  | Describe _ :: _ => true
  | _ => false
  end.
Definition add_entry (e : list (list str) * list block) (bs : list block) : option (list block) :=
  match bs with
  | Describe es :: bs' => Some (Describe (e :: es) :: bs')
  | _ => if entries_ahead bs then None else Some (Describe [e] :: bs)
  end.

(** Indented code (4.4): the lines with at least four spaces, and blank lines
    between them. *)
Fixpoint verbatim_span (ls : list str) : list str * list str :=
  match ls with
  | [] => ([], [])
  | l :: r =>
      if is_blank l || ((4 <=? run_len c_sp l) && negb (tabbed l))
      then let '(a, b) := verbatim_span r in (skipn 4 l :: a, b) else ([], ls)
  end.
Definition verbatim_body (ls : list str) : list str :=
  rev (let fix drop (l : list str) := match l with x :: r => if is_blank x then drop r else l | [] => [] end in drop (rev ls)).

(** The lines of a footnote after the first one: those with at least four
    spaces, and blank lines between them. *)
Definition begins_note (l : str) : bool := match margin l with Some s => is_some (note_head s) | None => false end.
Fixpoint note_span (after_blank : bool) (ls : list str) : option (list str * list str) :=
  match ls with
  | [] => Some ([], [])
  | l :: r =>
      if tabbed l && negb (is_blank l) then None
      else match strip_item 4 l with
           | Some x => add_to x (note_span (is_blank l) r)
           | None => if after_blank || closes l || begins_note l then Some ([], ls) else None
           end
  end.
(** HTML blocks (4.6). *)
Fixpoint comment_span (ls : list str) : option (list str * list str) :=
  match ls with
  | [] => None
  | l :: r => if comment_ends l then Some ([l], r) else add_to l (comment_span r)
  end.
Fixpoint tag_span (ls : list str) : list str * list str :=
  match ls with
  | [] => ([], [])
  | l :: r => if is_blank l then ([], ls) else let '(a, b) := tag_span r in (l :: a, b)
  end.
(** Tables (GFM 4.10): rows up to a blank line, each with both outer pipes and
    without indentation; missing cells are empty, cells too many are ignored.
    In a cell a pipe is written with a backslash. *)
Definition fit (n : nat) (cells : list str) : list str := firstn n (map SpecInline.unescape_pipes cells ++ repeat [] n).
Fixpoint row_span (n : nat) (ls : list str) : option (list (list str) * list str) :=
  match ls with
  | [] => Some ([], [])
  | l :: r => if is_blank l then Some ([], ls)
              else match read_row l with Some cells => add_to (fit n cells) (row_span n r) | None => None end
  end.

(** ** Blocks: the first one decides how to go on; [rec] reads shorter text. *)
Definition add_block (b : block) (x : option (list block)) : option (list block) := option_map (cons b) x.
Section Step.
Variable rec : list str -> option (list block).
Definition read_verbatim (ls : list str) : option (list block) :=
  let '(body, rest) := verbatim_span ls in add_block (Verbatim (verbatim_body body)) (rec rest).
Definition read_code (ls : list str) : option (list block) :=
  match read_fenced ls with
  | Some (info, body, rest) => add_block (Code info body) (rec rest)
  | None => None
  end.
Definition read_quote (ls : list str) : option (list block) :=
  match quote_span ls with
  | Some (inner, rest) =>
      match quote_sort_of (hd [] inner) with
      | Plain_quote => match rec inner with Some bs => add_block (Quote bs) (rec rest) | None => None end
      | Alert_of a => match rec (tl inner) with Some bs => add_block (Alert a bs) (rec rest) | None => None end
      | Unknown_quote => None
      end
  | None => None
  end.
Definition read_item (l : str) (r : list str) : option (list block) :=
  match item_line l with
  | Some (m, w, content) =>
      match item_lines w content r with
      | Some (inner, rest) =>
          match first_box inner with
          | Some (box, inner') =>
              match rec inner', rec rest with
              | Some bs, Some bs' => Some (add_item m (box, bs) rest bs')
              | _, _ => None
              end
          | None => None
          end
      | None => None
      end
  | None => None
  end.
(** Link definitions (4.7) must be followed by nothing, a blank line or
    another one. *)
Definition read_definitions (d : str * str * str) (r : list str) : option (list block) :=
  let '(label, url, title) := d in
  match r with
  | [] => Some [Define label url title]
  | l :: _ => if is_blank l || starts_with [c_lbr] l then add_block (Define label url title) (rec r) else None
  end.
Definition read_table (l : str) (r : list str) : option (list block) :=
  match r with
  | d :: r' =>
      match read_row l, read_delimiter_row d with
      | Some cells, Some columns =>
          let n := List.length columns in
          if List.length cells =? n then
            match row_span n r' with
            | Some (rows, rest) => add_block (Table columns (fit n cells :: rows)) (rec rest)
            | None => None
            end
          else None
      | _, _ => None
      end
  | [] => None
  end.
Definition read_html (s : str) (ls : list str) : option (list block) :=
  match html_sort_of s with
  | Comment => match comment_span ls with Some (body, rest) => add_block (Html body) (rec rest) | None => None end
  | Tag => let '(body, rest) := tag_span ls in add_block (Html body) (rec rest)
  | Other_html => None
  end.
Definition read_note (name content : str) (r : list str) : option (list block) :=
  match note_span false r with
  | Some (inner, rest) => match rec (content :: inner) with Some bs => add_block (Foot name bs) (rec rest) | None => None end
  | None => None
  end.
(** A paragraph with details behind it is the term they describe. *)
Definition read_text (p : list (list str)) (rest : list str) : option (list block) :=
  match details_next rest with
  | None => add_block (Para p) (rec rest)
  | Some (w, content, r) =>
      match item_span w false r with
      | Some (inner, rest') =>
          match rec (content :: inner), rec rest' with
          | Some ds, Some bs => add_entry (p, ds) bs
          | _, _ => None
          end
      | None => None
      end
  end.
Definition read_paragraph (l s : str) (r : list str) : option (list block) :=
  match continuation r with
  | None => read_table l r
  | Some (more, under, rest) =>
      if starts_with [c_lbr] s && existsb defines (l :: more) then None
      else match under with
           | None => read_text (line_pieces (l :: more)) rest
           | Some level =>
               match more with
               | [] => add_block (Head level (trim_blank s)) (rec rest)
               | _ => None
               end
           end
  end.
Definition read_step (ls : list str) : option (list block) :=
  match ls with
  | [] => Some []
  | l :: r =>
      if is_blank l then rec r
      else
        match margin l with
        | None => if (4 <=? run_len c_sp l) && negb (tabbed l) then read_verbatim ls else None
        | Some s =>
            if is_some (opening_fence l) then read_code ls
            else if is_rule s then add_block Rule (rec r)
            else
              match read_atx s with
              | Some (level, t) => add_block (Head level (atx_text t)) (rec r)
              | None =>
                  if starts_quote s then read_quote ls
                  else if is_some (marker_of s) then read_item l r
                  else if html_line s then read_html s ls
                  else
                    match note_head s with
                    | Some (name, content) => read_note name content r
                    | None =>
                        if strange s then None
                        else
                          match read_definition (s ++ [c_nl]) with
                          | Some d => read_definitions d r
                          | None => read_paragraph l s r
                          end
                    end
              end
        end
  end.
End Step.
Fixpoint read (fuel : nat) : list str -> option (list block) :=
  match fuel with
  | 0 => fun _ => None
  | S k => read_step (read k)
  end.

(** The link definitions among blocks, in order: label, URL and title. *)
Definition link_definitions (bs : list block) : list (str * str * str) :=
  flat_map (fun b => match b with Define label url title => [(label, url, title)] | _ => [] end) bs.
(** The lines [ls] have the blocks [bs]. *)
Definition reads (ls : list str) (bs : list block) : Prop := exists n, read n ls = Some bs.
(** A first line of three hyphens, perhaps after a byte order mark, may begin
    front matter. *)
Definition front_matter (text : str) : Prop :=
  exists l r, cm_lines text = l :: r /\ (l = lit "---" \/ l = 65279%N :: lit "---").
(** The document has the blocks [bs] and does not begin with front matter. *)
Definition reads_document (text : str) (bs : list block) : Prop :=
  ~ front_matter text /\ reads (cm_lines text) bs.
(** The document begins with front matter, the lines [front] between two lines
    of three hyphens, and has the blocks [bs] after it. *)
Definition reads_fronted (text : str) (front : list str) (bs : list block) : Prop :=
  exists rest, cm_lines text = lit "---" :: front ++ lit "---" :: rest /\ ~ In (lit "---") front /\ reads rest bs.

(** ** Text that stays text *)
Definition all_of (c : char) (w : str) : bool := forallb (ceq c) w.
(** A word that could begin a block if a line began with it, or make a heading
    or a table of the line before it. *)
Definition opener (w : str) : bool :=
  starts_with (lit "```") w || starts_with (lit "~~~") w || starts_with (lit ">") w
  || all_of c_star w || all_of c_us w || all_of c_hash w || all_of c_eq w
  || forallb (fun c => ceq c c_dash || ceq c c_colon || ceq c c_pipe) w
  || seqb w (lit "+") || seqb w (lit "~")
  || match marker_of w with Some (NumberOf ds _, _) => is_one ds | _ => false end
  || html_line w.
(** The text of a paragraph (soft and hard line breaks marked as in
    [SpecWrap]) in which no line can be mistaken for something else, however
    its lines are broken. *)
Record safe_text (x : str) : Prop := {
  st_clean : Forall clean_segment (segments x);
  st_steady : steady false x;
  st_no_cr : ~ In c_cr x;
  st_words : Forall (fun w => opener w = false /\ odd_backslashes w = false) (words x);
  st_first : marker_of (hd [] (words x)) = None;
  st_no_definition : starts_with [c_lbr] (hd [] (words x)) = true \/ Exists (fun w => starts_with (lit "[^") w = true) (words x) ->
    Forall (fun w => defines w = false) (words x)
}.
(** It does not begin like an alert, or like a task. *)
Definition unalerted (x : str) : Prop := quote_sort_of (hd [] (words x)) = Plain_quote.
Definition unboxed (x : str) : Prop :=
  (forall ws, words x <> lit "[" :: lit "]" :: ws) /\ ~ In (hd [] (words x)) [lit "[x]"; lit "[X]"].
(** How items are written: indentation, marker, spaces.  [w] is the column of
    the content. *)
Inductive item_mark : str -> marker -> nat -> Prop :=
| bullet_mark : forall a c b, is_bullet c = true -> a <= 3 -> 1 <= b <= 4 ->
    item_mark (spaces a ++ [c] ++ spaces b) (BulletOf c) (a + 1 + b)
| number_mark : forall a ds d b, Forall (fun c => is_ascii_digit c = true) ds -> 1 <= List.length ds <= 9 -> d = c_dot \/ d = c_rpar ->
    a <= 3 -> 1 <= b <= 4 -> item_mark (spaces a ++ (ds ++ [d]) ++ spaces b) (NumberOf ds d) (a + (List.length ds + 1) + b).
