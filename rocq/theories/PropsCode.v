(** Properties C03 and C21: code blocks. *)
From Coq Require Import Bool Arith NArith Lia String List.
From Verif Require Import Base BaseFacts SpecInline OptsModel CodeModel SpecCode CodeProof.
Import ListNotations.

(** ** C03 *)

(** Full claim: every written block reads back as its code and info string.
    Missing: info strings outside [info_survives] and code with a lone CR, for
    which the claim is false (refuted below).  [settles] says which code is
    to be written (C21); without formatters it is the block's own code. *)
Theorem C03_fenced_block_partial : forall o B k info literal rest,
  3 <= min_fence_length o ->
  info_survives o (block_info o info) ->
  let '(out, eff) := code_block o B false k info literal in
  exists content failed,
    settles o B k info literal content (eff_calls eff) failed
    /\ (no_lone_cr content ->
        read_fenced (cm_lines (out ++ rest)) = Some (block_info o info, cm_lines content, cm_lines rest)).
Proof.
  intros o B k info literal rest Hm Hi. unfold code_block.
  destruct (code_parts o B k info literal) as [[oi content] eff] eqn:E.
  apply code_parts_settles in E. destruct E as (-> & failed & S & _). exists content, failed. split; auto.
  intro Hcr. unfold fence_for.
  set (n := Nat.max (min_fence_length o) (max_fence_in_content (fence_char_char (fence_char o)) content + 1)).
  set (fc := fence_char_char (fence_char o)). cbn [app].
  rewrite <- !app_assoc. cbn [app].
  rewrite (app_assoc (repc fc n)).
  rewrite cm_lines_line by (apply Forall_app; split; [apply repc_line_char|apply info_suffix_line_char; auto]).
  rewrite <- !app_assoc. cbn [app].
  rewrite (cm_lines_flat (fun l => l)) by (apply lines_line_chars; auto). rewrite map_id.
  rewrite cm_lines_line by apply repc_line_char.
  cbn [read_fenced]. unfold fc at 1. rewrite opening_fence_written by (auto; unfold n; lia).
  rewrite fence_body_app; [rewrite lines_cm by auto; reflexivity| |].
  - apply no_line_closes. reflexivity.
  - apply closing_fence_self; [apply fence_char_not_ws|]. unfold fc. destruct (fence_char o); discriminate.
Qed.
Print Assumptions C03_fenced_block_partial.
Example C03_fenced_block_example :
  let code := lit "a" ++ [c_nl] ++ lit "  ~~~~~ x" ++ [c_nl] ++ [c_nl] ++ lit "b" ++ [c_nl] in
  info_survives default_options (block_info default_options (lit " rust  numbered "))
  /\ no_lone_cr code
  /\ read_fenced (cm_lines (fst (code_block default_options (Wasm None) false 0 (lit " rust  numbered ") code)))
     = Some (lit "rust  numbered", [lit "a"; lit "  ~~~~~ x"; []; lit "b"], []).
Proof.
  cbn zeta. split; [|split; [|vm_compute; reflexivity]].
  - repeat split; try discriminate. vm_compute. repeat (constructor; [repeat split; discriminate|]). constructor.
  - vm_compute. repeat (split; [discriminate|]). exact I.
Qed.

(** In a block quote (one level): stripping the quote markers and reading the
    fence gives the same. *)
Theorem C03_quoted_block_partial : forall o B k info literal,
  3 <= min_fence_length o ->
  info_survives o (block_info o info) ->
  let '(out, eff) := code_block o B true k info literal in
  exists content failed,
    settles o B k info literal content (eff_calls eff) failed
    /\ (no_lone_cr content ->
        exists ls, strip_all strip_quote (cm_lines out) = Some ls
                   /\ read_fenced ls = Some (block_info o info, cm_lines content, [])).
Proof.
  intros o B k info literal Hm Hi. unfold code_block.
  destruct (code_parts o B k info literal) as [[oi content] eff] eqn:E.
  apply code_parts_settles in E. destruct E as (-> & failed & S & _). exists content, failed. split; auto.
  intro Hcr. unfold fence_for.
  set (n := Nat.max (min_fence_length o) (max_fence_in_content (fence_char_char (fence_char o)) content + 1)).
  set (fc := fence_char_char (fence_char o)).
  set (g := fun line : str => (if is_nil line then lit ">" else lit "> ") ++ line).
  assert (Hq : forall l, Forall line_char l -> Forall line_char (g l)).
  { intros l Hl. unfold g. apply Forall_app. split; auto.
    destruct (is_nil l); cbn; repeat constructor; try discriminate. }
  exists ((repc fc n ++ info_suffix o (block_info o info)) :: lines content ++ [repc fc n]).
  assert (El : cm_lines
    (lit "> " ++ repc fc n ++ info_suffix o (block_info o info) ++ [c_nl]
      ++ flat_map (fun line => (if is_nil line then lit ">" else lit "> ") ++ line ++ [c_nl]) (lines content)
      ++ lit "> " ++ repc fc n ++ [c_nl])
    = (lit "> " ++ repc fc n ++ info_suffix o (block_info o info)) :: map g (lines content) ++ [lit "> " ++ repc fc n]).
  { match goal with |- cm_lines ?t = _ => replace t with
      ((lit "> " ++ repc fc n ++ info_suffix o (block_info o info)) ++ c_nl ::
        (flat_map (fun line => g line ++ [c_nl]) (lines content) ++ ((lit "> " ++ repc fc n) ++ c_nl :: []))) end.
    2:{ rewrite <- !app_assoc. cbn [app]. do 3 f_equal. f_equal. f_equal. apply flat_map_ext. intros l. unfold g.
        rewrite <- app_assoc. reflexivity. }
    assert (Hf : Forall line_char (lit "> ")) by (repeat constructor; discriminate).
    rewrite cm_lines_line.
    2:{ apply Forall_app. split; auto. apply Forall_app. split; [apply repc_line_char|apply info_suffix_line_char; auto]. }
    rewrite (cm_lines_flat g).
    2:{ eapply Forall_impl; [|apply lines_line_chars; eauto]. auto. }
    rewrite cm_lines_line; auto. apply Forall_app. split; auto. apply repc_line_char. }
  rewrite El. split.
  - cbn [strip_all]. rewrite strip_quote_prefixed.
    rewrite (strip_all_app _ _ _ (lines content) [repc fc n]); auto.
    apply strip_all_map. intros l _. unfold g. destruct l as [|x l]; [reflexivity|].
    cbn [is_nil]. apply strip_quote_prefixed.
  - cbn [read_fenced]. unfold fc at 1. rewrite opening_fence_written by (auto; unfold n; lia).
    rewrite fence_body_app; [rewrite lines_cm by auto; reflexivity| |].
    + apply no_line_closes. reflexivity.
    + apply closing_fence_self; [apply fence_char_not_ws|]. unfold fc. destruct (fence_char o); discriminate.
Qed.
Print Assumptions C03_quoted_block_partial.
Example C03_quoted_block_example :
  let code := lit "a" ++ [c_nl] ++ [c_nl] ++ lit "~~~~" ++ [c_nl] in
  fst (code_block default_options (Wasm None) true 0 (lit "c") code)
  = lit "> ~~~~~ c" ++ [c_nl] ++ lit "> a" ++ [c_nl] ++ lit ">" ++ [c_nl] ++ lit "> ~~~~" ++ [c_nl] ++ lit "> ~~~~~" ++ [c_nl].
Proof. vm_compute. reflexivity. Qed.

(** In a list item whose text starts [w] columns in: the opening fence is
    written at the current position, every later line is inside the item.
    With [q = true] the item itself is in a block quote. *)
Theorem C03_item_block_partial : forall o B (q : bool) k info literal w,
  3 <= min_fence_length o ->
  info_survives o (block_info o info) ->
  let '(out, eff) := code_block_indented o B q k info literal (spaces w) in
  exists content failed,
    settles o B k info literal content (eff_calls eff) failed
    /\ (no_lone_cr content ->
        exists first more ls, cm_lines out = first :: more
          /\ strip_all (fun l => match (if q then strip_quote l else Some l) with
                                 | Some l' => strip_item w l' | None => None end) more = Some ls
          /\ read_fenced (first :: ls) = Some (block_info o info, cm_lines content, [])).
Proof.
  intros o B q k info literal w Hm Hi. unfold code_block_indented.
  destruct (code_parts o B k info literal) as [[oi content] eff] eqn:E.
  apply code_parts_settles in E. destruct E as (-> & failed & S & _). exists content, failed. split; auto.
  intro Hcr. unfold fence_for.
  set (n := Nat.max (min_fence_length o) (max_fence_in_content (fence_char_char (fence_char o)) content + 1)).
  set (fc := fence_char_char (fence_char o)).
  set (qs := if q then lit "> " else []).
  set (g := fun line : str => qs ++ (if is_nil line then [] else spaces w ++ line)).
  assert (Hqs : Forall line_char qs) by (unfold qs; destruct q; repeat constructor; discriminate).
  assert (Hsp : Forall line_char (spaces w)) by (apply repc_forall; split; discriminate).
  assert (Hq : forall l, Forall line_char l -> Forall line_char (g l)).
  { intros l Hl. unfold g. apply Forall_app. split; auto. destruct (is_nil l); auto. apply Forall_app; auto. }
  exists (repc fc n ++ info_suffix o (block_info o info)), (map g (lines content) ++ [qs ++ spaces w ++ repc fc n]),
    (lines content ++ [repc fc n]).
  split; [|split].
  - match goal with |- cm_lines ?t = _ => replace t with
      ((repc fc n ++ info_suffix o (block_info o info)) ++ c_nl ::
        (flat_map (fun line => g line ++ [c_nl]) (lines content) ++ ((qs ++ spaces w ++ repc fc n) ++ c_nl :: []))) end.
    2:{ rewrite <- !app_assoc. cbn [app]. do 3 f_equal. f_equal. apply flat_map_ext. intros l. unfold g.
        rewrite <- app_assoc. reflexivity. }
    rewrite cm_lines_line.
    2:{ apply Forall_app. split; [apply repc_line_char|apply info_suffix_line_char; auto]. }
    rewrite (cm_lines_flat g).
    2:{ eapply Forall_impl; [|apply lines_line_chars; eauto]. auto. }
    rewrite cm_lines_line; auto. apply Forall_app. split; auto. apply Forall_app. split; auto. apply repc_line_char.
  - assert (Hs : forall l, match (if q then strip_quote (qs ++ l) else Some (qs ++ l)) with
                           | Some l' => strip_item w l' | None => None end = strip_item w l).
    { intros l. unfold qs. destruct q; [rewrite strip_quote_prefixed|]; reflexivity. }
    apply strip_all_app.
    + apply strip_all_map. intros l _. unfold g. rewrite Hs. destruct l as [|x l]; cbn [is_nil].
      * apply strip_item_empty.
      * apply strip_item_prefixed.
    + cbn [strip_all]. rewrite Hs, strip_item_prefixed. reflexivity.
  - cbn [read_fenced]. unfold fc at 1. rewrite opening_fence_written by (auto; unfold n; lia).
    rewrite fence_body_app; [rewrite lines_cm by auto; reflexivity| |].
    + apply no_line_closes. reflexivity.
    + apply closing_fence_self; [apply fence_char_not_ws|]. unfold fc. destruct (fence_char o); discriminate.
Qed.
Print Assumptions C03_item_block_partial.
Example C03_item_block_example :
  let code := lit "a" ++ [c_nl] ++ [c_nl] ++ lit "~~~~" ++ [c_nl] in
  fst (code_block_indented default_options (Wasm None) false 0 (lit "c") code (spaces 4))
  = lit "~~~~~ c" ++ [c_nl] ++ lit "    a" ++ [c_nl] ++ [c_nl] ++ lit "    ~~~~" ++ [c_nl] ++ lit "    ~~~~~" ++ [c_nl].
Proof. vm_compute. reflexivity. Qed.

(** In a definition (description details), the writer knows only two fence
    lengths.  Missing: code with longer runs of the fence character and code
    without a final newline, both refuted below. *)
Theorem C03_description_block_partial : forall o B k info literal w,
  3 <= min_fence_length o ->
  info_survives o (block_info o info) ->
  let '(out, eff) := code_block_with_indent o B k info literal (spaces w) in
  exists content failed,
    settles o B k info literal content (eff_calls eff) failed
    /\ (no_lone_cr content ->
        (forall a b, content <> a ++ repc (fence_char_char (fence_char o)) (S (min_fence_length o)) ++ b) ->
        (content = [] \/ exists t, content = t ++ [c_nl]) ->
        exists first more ls, cm_lines out = first :: more
          /\ strip_all (strip_item w) more = Some ls
          /\ read_fenced (first :: ls) = Some (block_info o info, cm_lines content, [])).
Proof.
  intros o B k info literal w Hm Hi. unfold code_block_with_indent.
  destruct (code_parts o B k info literal) as [[oi content] eff] eqn:E.
  apply code_parts_settles in E. destruct E as (-> & failed & S & _). exists content, failed. split; auto.
  intros Hcr Hrun Hnl.
  set (fc := fence_char_char (fence_char o)) in *.
  set (n := if contains_sub (repc fc (min_fence_length o)) content then Datatypes.S (min_fence_length o) else min_fence_length o).
  assert (Hfe : (if contains_sub (repc fc (min_fence_length o)) content
                 then repc fc (min_fence_length o + 1) else repc fc (min_fence_length o)) = repc fc n).
  { unfold n. rewrite Nat.add_1_r. destruct (contains_sub _ _); reflexivity. }
  rewrite Hfe.
  assert (Hn : 3 <= n) by (unfold n; destruct (contains_sub _ _); lia).
  assert (Hclose : Forall (fun l => closing_fence fc n l = false) (lines content)).
  { apply Forall_forall. intros l Hl. apply not_true_is_false. intro K.
    apply closing_fence_contains in K. destruct K as (a & b & K).
    apply lines_in in Hl. destruct Hl as (a' & b' & Hl). subst l.
    assert (Hc : content = (a' ++ a) ++ repc fc n ++ (b ++ b')) by (rewrite Hl, <- !app_assoc; reflexivity).
    revert Hc. unfold n, contains_sub. destruct (find_sub (repc fc (min_fence_length o)) content) eqn:Ef.
    - apply Hrun.
    - apply find_sub_none. auto. }
  assert (Hend : negb (ends_with [c_nl] content) && negb (is_nil content) = false).
  { destruct Hnl as [->|(t & ->)]; [reflexivity|].
    assert (ends_with [c_nl] (t ++ [c_nl]) = true) by (apply ends_with_true; eauto). rewrite H. reflexivity. }
  rewrite Hend. cbn [app].
  set (g := fun line : str => if is_nil line then [] else spaces w ++ line).
  assert (Hsp : Forall line_char (spaces w)) by (apply repc_forall; split; discriminate).
  assert (Hq : forall l, Forall line_char l -> Forall line_char (g l)).
  { intros l Hl. unfold g. destruct (is_nil l); auto. apply Forall_app; auto. }
  exists (repc fc n ++ info_suffix o (block_info o info)), (map g (lines content) ++ [spaces w ++ repc fc n]),
    (lines content ++ [repc fc n]).
  split; [|split].
  - match goal with |- cm_lines ?t = _ => replace t with
      ((repc fc n ++ info_suffix o (block_info o info)) ++ c_nl ::
        (flat_map (fun line => g line ++ [c_nl]) (lines content) ++ ((spaces w ++ repc fc n) ++ c_nl :: []))) end.
    2:{ rewrite <- !app_assoc. cbn [app]. reflexivity. }
    rewrite cm_lines_line.
    2:{ apply Forall_app. split; [apply repc_line_char|apply info_suffix_line_char; auto]. }
    rewrite (cm_lines_flat g).
    2:{ eapply Forall_impl; [|apply lines_line_chars; eauto]. auto. }
    rewrite cm_lines_line; auto. apply Forall_app. split; auto. apply repc_line_char.
  - apply strip_all_app.
    + apply strip_all_map. intros l _. unfold g. destruct l as [|x l]; cbn [is_nil].
      * apply strip_item_empty.
      * apply strip_item_prefixed.
    + cbn [strip_all]. rewrite strip_item_prefixed. reflexivity.
  - cbn [read_fenced]. unfold fc at 1. rewrite opening_fence_written by auto.
    rewrite fence_body_app; [rewrite lines_cm by auto; reflexivity|auto|].
    apply closing_fence_self; [apply fence_char_not_ws|]. unfold fc. destruct (fence_char o); discriminate.
Qed.
Print Assumptions C03_description_block_partial.
Example C03_description_block_example :
  let code := lit "a" ++ [c_nl] ++ lit "~~~~" ++ [c_nl] in
  fst (code_block_with_indent default_options (Wasm None) 0 (lit "c") code (spaces 4))
  = lit "~~~~~ c" ++ [c_nl] ++ lit "    a" ++ [c_nl] ++ lit "    ~~~~" ++ [c_nl] ++ lit "    ~~~~~" ++ [c_nl]
  /\ (forall a b, code <> a ++ repc c_tilde 5 ++ b).
Proof.
  cbn zeta. split; [vm_compute; reflexivity|].
  assert (K : find_sub (repc c_tilde 5) (lit "a" ++ [c_nl] ++ lit "~~~~" ++ [c_nl]) = None) by (vm_compute; reflexivity).
  exact (find_sub_none _ _ K).
Qed.

Definition with_fence (f : FenceChar) (space : bool) : Options :=
  let o := default_options in
  {| line_width := line_width o; setext_h1 := setext_h1 o; setext_h2 := setext_h2 o;
     heading_sentence_case := heading_sentence_case o; heading_proper_nouns := [];
     heading_common_nouns := []; unordered_marker := unordered_marker o;
     leading_spaces := leading_spaces o; trailing_spaces := trailing_spaces o;
     indent_width := indent_width o; odd_level_marker := odd_level_marker o;
     even_level_marker := even_level_marker o; ordered_list_pad := ordered_list_pad o;
     ordered_list_indent_width := ordered_list_indent_width o; fence_char := f;
     min_fence_length := 3; space_after_fence := space; default_language := [];
     thematic_break_style := thematic_break_style o;
     thematic_break_leading_spaces := thematic_break_leading_spaces o;
     curly_double_quotes := curly_double_quotes o; curly_single_quotes := curly_single_quotes o;
     curly_apostrophes := curly_apostrophes o; ellipsis := ellipsis o; en_dash := en_dash o;
     em_dash := em_dash o; code_formatters := [] |}.

(** A lone CR (an old Mac line ending, which CommonMark accepts) hides a
    fence in the code from the writer: the block ends too early. *)
Theorem C03_lone_cr_refuted : exists literal,
  read_fenced (cm_lines (fst (code_block default_options (Wasm None) false 0 (lit "c") literal)))
  = Some (lit "c", [lit "a"], [lit "b"; lit "~~~~"])
  /\ cm_lines literal = [lit "a"; lit "~~~~"; lit "b"].
Proof.
  exists (lit "a" ++ [c_cr] ++ lit "~~~~" ++ [c_cr] ++ lit "b" ++ [c_nl]). split; vm_compute; reflexivity.
Qed.
Print Assumptions C03_lone_cr_refuted.

(** A backslash in the info string is not escaped: the language changes. *)
Theorem C03_info_backslash_refuted : exists info,
  info = lit "a\*b"
  /\ read_fenced (cm_lines (fst (code_block default_options (Wasm None) false 0 info (lit "x"))))
     = Some (lit "a*b", [lit "x"], []).
Proof. eexists. split; [reflexivity|]. vm_compute. reflexivity. Qed.
Print Assumptions C03_info_backslash_refuted.

(** A backtick in the info string with backtick fences: no code block at all. *)
Theorem C03_info_backtick_refuted : exists info,
  read_fenced (cm_lines (fst (code_block (with_fence FBacktick true) (Wasm None) false 0 info (lit "x")))) = None.
Proof. exists (lit "a`b"). vm_compute. reflexivity. Qed.
Print Assumptions C03_info_backtick_refuted.

(** Without the space after the fence, an info string that starts with the
    fence character lengthens the fence, which is then never closed. *)
Theorem C03_info_glued_refuted : exists info,
  read_fenced (cm_lines (fst (code_block (with_fence FTilde false) (Wasm None) false 0 info (lit "x")) ++ lit "after"))
  = Some (lit "x", [lit "x"; lit "~~~"; lit "after"], []).
Proof. exists (lit "~x"). vm_compute. reflexivity. Qed.
Print Assumptions C03_info_glued_refuted.

(** In a definition the fence can be too short: the code is cut. *)
Theorem C03_description_fence_refuted : exists literal,
  let out := fst (code_block_with_indent default_options (Wasm None) 0 (lit "c") literal (spaces 4)) in
  exists ls, strip_all (strip_item 4) (tl (cm_lines out)) = Some ls
  /\ read_fenced (hd [] (cm_lines out) :: ls) = Some (lit "c", [lit "a"], [lit "b"; lit "~~~~~"])
  /\ cm_lines literal = [lit "a"; lit "~~~~~"; lit "b"].
Proof.
  exists (lit "a" ++ [c_nl] ++ lit "~~~~~" ++ [c_nl] ++ lit "b" ++ [c_nl]). cbn zeta.
  eexists. split; [vm_compute; reflexivity|]. split; vm_compute; reflexivity.
Qed.
Print Assumptions C03_description_fence_refuted.

(** In a definition, code without a final newline (typically a formatter's
    answer) gains an empty last line. *)
Theorem C03_description_extra_line_refuted : exists literal,
  let out := fst (code_block_with_indent default_options (Wasm None) 0 (lit "c") literal (spaces 4)) in
  exists ls, strip_all (strip_item 4) (tl (cm_lines out)) = Some ls
  /\ read_fenced (hd [] (cm_lines out) :: ls) = Some (lit "c", [lit "a"; []], [])
  /\ cm_lines literal = [lit "a"].
Proof.
  exists (lit "a"). cbn zeta. eexists. split; [vm_compute; reflexivity|]. split; vm_compute; reflexivity.
Qed.
Print Assumptions C03_description_extra_line_refuted.

(** ** C21 *)

(** Every writer writes the code that [settles] prescribes: the original code
    unless a formatter was found, not forbidden, called once with exactly that
    code, and succeeded.  A failure yields one warning naming the command, the
    language and the reason.  Missing for the full claim: the warning's line,
    which is always 0 (next theorem). *)
Definition writes_code (o : Options) (B : backend) (k : nat) (info literal : str)
  (write : str -> str) (r : str * effects) : Prop :=
  let '(out, eff) := r in
  exists content failed,
    out = write content
    /\ settles o B k info literal content (eff_calls eff) failed
    /\ match failed with
       | None => eff_warnings eff = []
       | Some (f, e) => exists why, explains e why
           /\ map warn_message (eff_warnings eff)
              = [lit "code formatter '" ++ join [c_sp] (cf_command f) ++ lit "' failed for language '"
                 ++ block_language o info ++ lit "': " ++ why]
       end.
Lemma error_explained : forall e, explains e (formatter_error_text e).
Proof.
  destruct e as [|e|e| |c said|e]; cbn [formatter_error_text]; try constructor.
  destruct c as [c|], said as [|y said]; cbn [is_nil];
    [rewrite app_nil_r; constructor|rewrite <- app_assoc; constructor; discriminate
    |rewrite app_nil_r; constructor|apply ex_signal_said; discriminate].
Qed.

Theorem C21_formatter_partial : forall o B k info literal indent (q : bool),
  exists w1 w2 w3 : str -> str,
    writes_code o B k info literal w1 (code_block o B q k info literal)
    /\ writes_code o B k info literal w2 (code_block_indented o B q k info literal indent)
    /\ writes_code o B k info literal w3 (code_block_with_indent o B k info literal indent)
    /\ (forall code, w1 code = fst (code_block o (Wasm None) q k info code)
                     /\ w2 code = fst (code_block_indented o (Wasm None) q k info code indent)
                     /\ w3 code = fst (code_block_with_indent o (Wasm None) k info code indent)).
Proof.
  intros. exists (fun code => fst (code_block o (Wasm None) q k info code)),
    (fun code => fst (code_block_indented o (Wasm None) q k info code indent)),
    (fun code => fst (code_block_with_indent o (Wasm None) k info code indent)).
  assert (Hplain : forall code, exists eff, code_parts o (Wasm None) k info code = (block_info o info, code, eff)).
  { intros code. destruct (code_parts o (Wasm None) k info code) as [[oi c] eff] eqn:E.
    apply code_parts_settles in E. destruct E as (-> & f & S & _). exists eff.
    inversion S; subst; try discriminate; reflexivity. }
  unfold writes_code, code_block, code_block_indented, code_block_with_indent.
  destruct (code_parts o B k info literal) as [[oi content] eff] eqn:E.
  apply code_parts_settles in E. destruct E as (-> & failed & S & W).
  destruct (Hplain content) as [eff' Hp].
  assert (Hw : match failed with
       | None => eff_warnings eff = []
       | Some (f, e) => exists why, explains e why
           /\ map warn_message (eff_warnings eff)
              = [lit "code formatter '" ++ join [c_sp] (cf_command f) ++ lit "' failed for language '"
                 ++ block_language o info ++ lit "': " ++ why]
       end).
  { rewrite W. destruct failed as [[f e]|]; [|reflexivity]. exists (formatter_error_text e). split; [apply error_explained|reflexivity]. }
  split; [|split; [|split]].
  - exists content, failed. rewrite Hp. cbn [fst]. split; auto.
  - exists content, failed. rewrite Hp. cbn [fst]. split; auto.
  - exists content, failed. rewrite Hp. cbn [fst]. split; auto.
  - intros code. split; [|split]; reflexivity.
Qed.
Print Assumptions C21_formatter_partial.
Definition fmt_options : Options :=
  let o := default_options in
  {| line_width := line_width o; setext_h1 := setext_h1 o; setext_h2 := setext_h2 o;
     heading_sentence_case := heading_sentence_case o; heading_proper_nouns := [];
     heading_common_nouns := []; unordered_marker := unordered_marker o;
     leading_spaces := leading_spaces o; trailing_spaces := trailing_spaces o;
     indent_width := indent_width o; odd_level_marker := odd_level_marker o;
     even_level_marker := even_level_marker o; ordered_list_pad := ordered_list_pad o;
     ordered_list_indent_width := ordered_list_indent_width o; fence_char := fence_char o;
     min_fence_length := 4; space_after_fence := true; default_language := [];
     thematic_break_style := thematic_break_style o;
     thematic_break_leading_spaces := thematic_break_leading_spaces o;
     curly_double_quotes := curly_double_quotes o; curly_single_quotes := curly_single_quotes o;
     curly_apostrophes := curly_apostrophes o; ellipsis := ellipsis o; en_dash := en_dash o;
     em_dash := em_dash o;
     code_formatters := [(lit "js", mkCodeFormatter [lit "deno"; lit "fmt"] 5%N)] |}.
Example C21_failure_example :
  code_block fmt_options (Native (fun _ _ _ _ => inr TimeoutErr)) false 0 (lit "js") (lit "x" ++ [c_nl])
  = (lit "~~~~ js" ++ [c_nl] ++ lit "x" ++ [c_nl] ++ lit "~~~~" ++ [c_nl],
     mkEff [mkWarning 0 (lit "code formatter 'deno fmt' failed for language 'js': process timed out")]
           [mkCall [lit "deno"; lit "fmt"] (lit "js") (lit "x" ++ [c_nl])]).
Proof. vm_compute. reflexivity. Qed.
Example C21_explained_example :
  map warn_message (eff_warnings (snd (code_block fmt_options
    (Native (fun _ _ _ _ => inr (NonZeroExit (Some (lit "2")) (lit " no such file" ++ [c_nl])))) false 0 (lit "js") (lit "x" ++ [c_nl]))))
  = [lit "code formatter 'deno fmt' failed for language 'js': process exited with code 2: no such file"].
Proof. vm_compute. reflexivity. Qed.
Example C21_success_example :
  code_block fmt_options (Native (fun _ _ c _ => inl (lit "y;" ++ c))) false 0 (lit "js") (lit "x" ++ [c_nl])
  = (lit "~~~~ js" ++ [c_nl] ++ lit "y;x" ++ [c_nl] ++ lit "~~~~" ++ [c_nl],
     mkEff [] [mkCall [lit "deno"; lit "fmt"] (lit "js") (lit "x" ++ [c_nl])]).
Proof. vm_compute. reflexivity. Qed.
Example C21_no_format_example :
  code_block fmt_options (Native (fun _ _ c _ => inl (lit "y;" ++ c))) false 0 (lit "js hongdown-no-format") (lit "x" ++ [c_nl])
  = (lit "~~~~ js hongdown-no-format" ++ [c_nl] ++ lit "x" ++ [c_nl] ++ lit "~~~~" ++ [c_nl], no_effects).
Proof. vm_compute. reflexivity. Qed.

(** The prescription is unambiguous: code and calls are determined. *)
Theorem C21_settles_deterministic : forall o B k info code out1 calls1 f1 out2 calls2 f2,
  settles o B k info code out1 calls1 f1 -> settles o B k info code out2 calls2 f2 ->
  out1 = out2 /\ calls1 = calls2 /\ f1 = f2.
Proof.
  assert (U : forall A k (l : list (str * A)) v w, first_binding k l v -> first_binding k l w -> v = w).
  { intros A k l v w H. revert w. induction H; intros x Hx; inversion Hx; subst; auto; congruence. }
  assert (N : forall A k (l : list (str * A)) v, first_binding k l v -> unbound k l -> False).
  { intros A k l v H. unfold unbound. induction H; cbn; intros Hn; tauto. }
  intros o B k info code out1 calls1 f1 out2 calls2 f2 H1 H2.
  destruct H1; inversion H2; subst; try discriminate; try contradiction; auto;
    try (exfalso; eapply N; eassumption);
    repeat match goal with
    | H : Native _ = Native _ |- _ => injection H as H; subst
    | H : Wasm _ = Wasm _ |- _ => injection H as H; subst
    | H : first_binding ?a ?b ?x, K : first_binding ?a ?b ?y |- _ =>
        lazymatch x with y => fail | _ => assert (x = y) by (eapply U; eassumption); subst end
    end; auto; try congruence; try (repeat split; congruence).
Qed.
Print Assumptions C21_settles_deterministic.
Example C21_settles_example :
  settles fmt_options (Native (fun _ _ _ _ => inr TimeoutErr)) 3 (lit "js") (lit "x") (lit "x")
    [mkCall [lit "deno"; lit "fmt"] (lit "js") (lit "x")]
    (Some (mkCodeFormatter [lit "deno"; lit "fmt"] 5%N, TimeoutErr)).
Proof.
  apply (S_failure fmt_options _ 3 (lit "js") (lit "x") _ (mkCodeFormatter [lit "deno"; lit "fmt"] 5%N) TimeoutErr eq_refl).
  - intros [K|[]]. discriminate.
  - discriminate.
  - apply fb_here.
  - reflexivity.
Qed.

(** The recorded line is 0 whatever the block, so it never is the block's
    line (lines count from 1). *)
Theorem C21_warning_lines_zero : forall o B k info literal q w,
  In w (eff_warnings (snd (code_block o B q k info literal))) -> warn_line w = 0.
Proof.
  intros o B k info literal q w. unfold code_block.
  destruct (code_parts o B k info literal) as [[oi content] eff] eqn:E. cbn [snd].
  apply code_parts_settles in E. destruct E as (_ & f & _ & ->). destruct f as [[f e]|]; cbn; [|tauto].
  intros [<-|[]]. reflexivity.
Qed.
Print Assumptions C21_warning_lines_zero.
Theorem C21_warning_line_refuted : exists o B info literal w,
  eff_warnings (snd (code_block o B false 0 info literal)) = [w] /\ ~ 1 <= warn_line w.
Proof.
  exists fmt_options, (Native (fun _ _ _ _ => inr TimeoutErr)), (lit "js"), (lit "x" ++ [c_nl]).
  eexists. split; [vm_compute; reflexivity|]. cbn. lia.
Qed.
Print Assumptions C21_warning_line_refuted.
