(** Model of src/config.rs (configuration files, cascade, discovery), of the
    option assembly in src/main.rs and of the JavaScript options in
    src/wasm.rs. *)
From Coq Require Import Bool Arith NArith ZArith List String.
From Verif Require Import Base OptsModel.
Import ListNotations.

Definition rbind {A B} (x : result A) (f : A -> result B) : result B :=
  match x with Rok a => f a | Rerr => Rerr end.
Notation "'do' x <- e ; f" := (rbind e (fun x => f)) (at level 200, x name, e at level 100, f at level 200).

(** A parsed TOML document.  Simplification: the [toml] parser itself is not
    modelled; floats and dates are [TOther]. *)
Inductive toml :=
| TInt (z : Z) | TStr (s : str) | TBool (b : bool)
| TArr (l : list toml) | TTab (l : list (str * toml)) | TOther.
Definition table := list (str * toml).

Fixpoint tlookup (k : str) (t : table) : option toml :=
  match t with
  | [] => None
  | (k', v) :: r => if seqb k k' then Some v else tlookup k r
  end.

(** serde deserialisers of the primitive types. *)
Definition de_usize (v : toml) : result nat :=
  match v with TInt z => if (0 <=? z)%Z then Rok (Z.to_nat z) else Rerr | _ => Rerr end.
Definition de_u64 (v : toml) : result N :=
  match v with TInt z => if (0 <=? z)%Z then Rok (Z.to_N z) else Rerr | _ => Rerr end.
Definition de_bool (v : toml) : result bool := match v with TBool b => Rok b | _ => Rerr end.
Definition de_str (v : toml) : result str := match v with TStr s => Rok s | _ => Rerr end.
Fixpoint de_list {A} (f : toml -> result A) (l : list toml) : result (list A) :=
  match l with
  | [] => Rok []
  | v :: r => do x <- f v; do xs <- de_list f r; Rok (x :: xs)
  end.
Definition de_strs (v : toml) : result (list str) :=
  match v with TArr l => de_list de_str l | _ => Rerr end.

(** src/config.rs:274-282, 319-327, 364-372, 417-425, 615-623: newtype
    deserialisation = [usize::deserialize] then [new]. *)
Definition de_leading (v : toml) : result nat := do n <- de_usize v; leading_spaces_new n.
Definition de_trailing (v : toml) : result nat := do n <- de_usize v; trailing_spaces_new n.
Definition de_indent (v : toml) : result nat := do n <- de_usize v; indent_width_new n.
Definition de_line_width (v : toml) : result nat := do n <- de_usize v; line_width_new n.
Definition de_min_fence (v : toml) : result nat := do n <- de_usize v; min_fence_length_new n.
Definition de_tb_style (v : toml) : result str := do s <- de_str v; thematic_break_style_new s.

(** src/config.rs:841-891 [DashSetting] deserialisation *)
Definition de_dash (v : toml) : result DashSetting :=
  match v with
  | TBool true => Rerr
  | TBool false => Rok DDisabled
  | TStr s => do p <- dash_pattern_new s; Rok (DPattern p)
  | _ => Rerr
  end.

(** Renamed enum variants (src/config.rs:213-226, 444-454, 466-475, 558-568). *)
Definition de_unordered_marker (v : toml) : result UnorderedMarker :=
  do s <- de_str v;
  if seqb s (lit "-") then Rok UHyphen else if seqb s (lit "*") then Rok UAsterisk
  else if seqb s (lit "+") then Rok UPlus else Rerr.
Definition de_ordered_marker (v : toml) : result OrderedMarker :=
  do s <- de_str v;
  if seqb s (lit ".") then Rok OPeriod else if seqb s (lit ")") then Rok OParenthesis else Rerr.
Definition de_pad (v : toml) : result OrderedListPad :=
  do s <- de_str v;
  if seqb s (lit "start") then Rok PadStart else if seqb s (lit "end") then Rok PadEnd else Rerr.
Definition de_fence_char (v : toml) : result FenceChar :=
  do s <- de_str v;
  if seqb s (lit "~") then Rok FTilde else if seqb s (lit "`") then Rok FBacktick else Rerr.

(** A struct field under [#[serde(default)]]: a missing key takes the
    struct's default. *)
Definition field {A} (t : table) (k : string) (f : toml -> result A) (d : A) : result A :=
  match tlookup (lit k) t with Some v => f v | None => Rok d end.
(** An [Option] field: a missing key is [None]. *)
Definition ofield {A} (t : table) (k : string) (f : toml -> result A) : result (option A) :=
  match tlookup (lit k) t with Some v => do x <- f v; Rok (Some x) | None => Rok None end.
Definition de_table {A} (f : table -> result A) (v : toml) : result A :=
  match v with TTab t => f t | _ => Rerr end.

(** src/config.rs:177-211 [HeadingConfig] *)
Record HeadingConfig := mkHeading {
  hc_setext_h1 : bool; hc_setext_h2 : bool; hc_sentence_case : bool;
  hc_proper_nouns : list str; hc_common_nouns : list str }.
Definition default_heading := mkHeading true true false [] [].
Definition de_heading (t : table) : result HeadingConfig :=
  do a <- field t "setext_h1" de_bool true;
  do b <- field t "setext_h2" de_bool true;
  do c <- field t "sentence_case" de_bool false;
  do d <- field t "proper_nouns" de_strs [];
  do e <- field t "common_nouns" de_strs [];
  Rok (mkHeading a b c d e).

(** src/config.rs:427-442 [UnorderedListConfig] *)
Record UnorderedListConfig := mkUL {
  ul_marker : UnorderedMarker; ul_leading : nat; ul_trailing : nat; ul_indent : nat }.
Definition default_ul := mkUL UHyphen 1 2 4.
Definition de_ul (t : table) : result UnorderedListConfig :=
  do a <- field t "unordered_marker" de_unordered_marker UHyphen;
  do b <- field t "leading_spaces" de_leading 1;
  do c <- field t "trailing_spaces" de_trailing 2;
  do d <- field t "indent_width" de_indent 4;
  Rok (mkUL a b c d).

(** src/config.rs:477-503 [OrderedListConfig] *)
Record OrderedListConfig := mkOL {
  ol_odd : OrderedMarker; ol_even : OrderedMarker; ol_pad : OrderedListPad; ol_indent : nat }.
Definition default_ol := mkOL OPeriod OParenthesis PadStart 4.
Definition de_ol (t : table) : result OrderedListConfig :=
  do a <- field t "odd_level_marker" de_ordered_marker OPeriod;
  do b <- field t "even_level_marker" de_ordered_marker OParenthesis;
  do c <- field t "pad" de_pad PadStart;
  do d <- field t "indent_width" de_indent 4;
  Rok (mkOL a b c d).

(** src/config.rs:510-556 [FormatterConfig]: the accessors make both variants
    a (command, timeout) pair; the default timeout is 5. *)
Definition FormatterConfig := (list str * N)%type.
Definition de_formatter (v : toml) : result FormatterConfig :=
  match v with
  | TArr l => do c <- de_list de_str l; Rok (c, 5%N)
  | TTab t =>
      match tlookup (lit "command") t with
      | None => Rerr
      | Some cv =>
          do c <- de_strs cv;
          do tm <- field t "timeout" de_u64 5%N;
          Rok (c, tm)
      end
  | _ => Rerr
  end.
(** src/config.rs:550-555 [FormatterConfig::validate] *)
Definition formatter_validate (f : FormatterConfig) : bool := negb (is_nil (fst f)).

Fixpoint de_formatters_tab (t : table) : result (list (str * FormatterConfig)) :=
  match t with
  | [] => Rok []
  | (k, v) :: r => do f <- de_formatter v; do fs <- de_formatters_tab r; Rok ((k, f) :: fs)
  end.
Definition de_formatters (v : toml) : result (list (str * FormatterConfig)) :=
  match v with TTab t => de_formatters_tab t | _ => Rerr end.

(** src/config.rs:625-660 [CodeBlockConfig] *)
Record CodeBlockConfig := mkCB {
  cb_fence_char : FenceChar; cb_min_fence : nat; cb_space : bool; cb_lang : str;
  cb_formatters : list (str * FormatterConfig) }.
Definition default_cb := mkCB FTilde 4 true [] [].
Definition de_cb (t : table) : result CodeBlockConfig :=
  do a <- field t "fence_char" de_fence_char FTilde;
  do b <- field t "min_fence_length" de_min_fence 4;
  do c <- field t "space_after_fence" de_bool true;
  do d <- field t "default_language" de_str [];
  do e <- field t "formatters" de_formatters [];
  Rok (mkCB a b c d e).

(** src/config.rs:768-787 [ThematicBreakConfig] *)
Record ThematicBreakConfig := mkTB { tb_style : str; tb_leading : nat }.
Definition default_tb := mkTB default_thematic_break_style 3.
Definition de_tb (t : table) : result ThematicBreakConfig :=
  do a <- field t "style" de_tb_style default_thematic_break_style;
  do b <- field t "leading_spaces" de_leading 3;
  Rok (mkTB a b).

(** src/config.rs:893-935 [PunctuationConfig] *)
Record PunctuationConfig := mkPC {
  pc_dq : bool; pc_sq : bool; pc_ap : bool; pc_ell : bool; pc_en : DashSetting; pc_em : DashSetting }.
Definition default_pc := mkPC true true false true DDisabled (DPattern (lit "--")).
Definition de_pc (t : table) : result PunctuationConfig :=
  do a <- field t "curly_double_quotes" de_bool true;
  do b <- field t "curly_single_quotes" de_bool true;
  do c <- field t "curly_apostrophes" de_bool false;
  do d <- field t "ellipsis" de_bool true;
  do e <- field t "en_dash" de_dash DDisabled;
  do f <- field t "em_dash" de_dash (DPattern (lit "--"));
  Rok (mkPC a b c d e f).

(** src/config.rs:21-79 [Config] and its default *)
Record Config := mkConfig {
  c_no_inherit : bool; c_line_width : nat; c_include : list str; c_exclude : list str;
  c_git_aware : bool; c_heading : HeadingConfig; c_ul : UnorderedListConfig;
  c_ol : OrderedListConfig; c_cb : CodeBlockConfig; c_tb : ThematicBreakConfig;
  c_punct : PunctuationConfig }.
Definition default_config : Config :=
  mkConfig false 80 [] [] true default_heading default_ul default_ol default_cb default_tb default_pc.
Definition de_config (t : table) : result Config :=
  do a <- field t "no_inherit" de_bool false;
  do b <- field t "line_width" de_line_width 80;
  do c <- field t "include" de_strs [];
  do d <- field t "exclude" de_strs [];
  do e <- field t "git_aware" de_bool true;
  do f <- field t "heading" (de_table de_heading) default_heading;
  do g <- field t "unordered_list" (de_table de_ul) default_ul;
  do h <- field t "ordered_list" (de_table de_ol) default_ol;
  do i <- field t "code_block" (de_table de_cb) default_cb;
  do j <- field t "thematic_break" (de_table de_tb) default_tb;
  do k <- field t "punctuation" (de_table de_pc) default_pc;
  Rok (mkConfig a b c d e f g h i j k).

(** src/config.rs:87-122 [ConfigLayer] *)
Record ConfigLayer := mkLayer {
  l_no_inherit : bool; l_line_width : option nat; l_include : option (list str);
  l_exclude : option (list str); l_git_aware : option bool; l_heading : option HeadingConfig;
  l_ul : option UnorderedListConfig; l_ol : option OrderedListConfig; l_cb : option CodeBlockConfig;
  l_tb : option ThematicBreakConfig; l_punct : option PunctuationConfig }.
Definition de_layer (t : table) : result ConfigLayer :=
  do a <- field t "no_inherit" de_bool false;
  do b <- ofield t "line_width" de_line_width;
  do c <- ofield t "include" de_strs;
  do d <- ofield t "exclude" de_strs;
  do e <- ofield t "git_aware" de_bool;
  do f <- ofield t "heading" (de_table de_heading);
  do g <- ofield t "unordered_list" (de_table de_ul);
  do h <- ofield t "ordered_list" (de_table de_ol);
  do i <- ofield t "code_block" (de_table de_cb);
  do j <- ofield t "thematic_break" (de_table de_tb);
  do k <- ofield t "punctuation" (de_table de_pc);
  Rok (mkLayer a b c d e f g h i j k).

Definition oset {A} (o : option A) (base : A) : A := match o with Some a => a | None => base end.

(** src/config.rs:139-174 [ConfigLayer::merge_over] *)
Definition merge_over (l : ConfigLayer) (b : Config) : Config :=
  mkConfig (l_no_inherit l) (oset (l_line_width l) (c_line_width b)) (oset (l_include l) (c_include b))
    (oset (l_exclude l) (c_exclude b)) (oset (l_git_aware l) (c_git_aware b))
    (oset (l_heading l) (c_heading b)) (oset (l_ul l) (c_ul b)) (oset (l_ol l) (c_ol b))
    (oset (l_cb l) (c_cb b)) (oset (l_tb l) (c_tb b)) (oset (l_punct l) (c_punct b)).

(** ** Files *)

(** A path is its list of components, innermost first ([] is the root);
    [Path::pop] drops the head and fails on []. *)
Definition path := list str.
Definition config_file_name : str := lit ".hongdown.toml".

(** What a path may hold: nothing, something that cannot be read or parsed
    (I/O error, directory, invalid TOML), or a parsed table. *)
Inductive file := FAbsent | FBroken | FParsed (t : table).
Definition filesystem := path -> file.

(** src/config.rs:943-948 [Config::from_file] / 128-132 [ConfigLayer::from_file] *)
Definition config_from_file (fs : filesystem) (p : path) : result Config :=
  match fs p with FParsed t => de_config t | _ => Rerr end.
Definition layer_from_file (fs : filesystem) (p : path) : result ConfigLayer :=
  match fs p with FParsed t => de_layer t | _ => Rerr end.
Definition exists_file (fs : filesystem) (p : path) : bool :=
  match fs p with FAbsent => false | _ => true end.

(** src/config.rs:1063-1068 [try_load_layer] *)
Definition try_load_layer (fs : filesystem) (p : path) : result (option ConfigLayer) :=
  if negb (exists_file fs p) then Rok None
  else do l <- layer_from_file fs p; Rok (Some l).

(** src/config.rs:1045-1060 [discover_project_config] *)
Fixpoint discover_project_config (fs : filesystem) (current : path) : result (option (path * ConfigLayer)) :=
  let config_path := config_file_name :: current in
  if exists_file fs config_path then
    do l <- layer_from_file fs config_path; Rok (Some (config_path, l))
  else match current with
       | [] => Rok None
       | _ :: parent => discover_project_config fs parent
       end.

(** src/config.rs:955-968 [Config::discover] *)
Fixpoint discover (fs : filesystem) (current : path) : result (option (path * Config)) :=
  let config_path := config_file_name :: current in
  if exists_file fs config_path then
    do c <- config_from_file fs config_path; Rok (Some (config_path, c))
  else match current with
       | [] => Rok None
       | _ :: parent => discover fs parent
       end.

(** Where the user-level files live: [dirs::home_dir], [dirs::config_dir]. *)
Record UserDirs := mkDirs { home_dir : option path; config_dir : option path }.

Definition system_config_path : path := [lit "config.toml"; lit "hongdown"; lit "etc"].
Definition legacy_path (home : path) : path := lit ".hongdown.toml" :: home.
Definition xdg_path (cfg : path) : path := lit "config.toml" :: lit "hongdown" :: cfg.

(** src/config.rs:1021-1042 the three user/system loaders *)
Definition load_system_config (fs : filesystem) := try_load_layer fs system_config_path.
Definition load_user_legacy_config (fs : filesystem) (d : UserDirs) :=
  match home_dir d with Some h => try_load_layer fs (legacy_path h) | None => Rok None end.
Definition load_user_xdg_config (fs : filesystem) (d : UserDirs) :=
  match config_dir d with Some c => try_load_layer fs (xdg_path c) | None => Rok None end.

Definition opush {A} (l : list A) (o : option A) : list A := match o with Some a => l ++ [a] | None => l end.

(** src/config.rs:981-1019 [load_cascading] *)
Definition load_cascading (fs : filesystem) (d : UserDirs) (start_dir : path) : result (Config * option path) :=
  do sys <- load_system_config fs;
  let layers := opush [] sys in
  do leg <- load_user_legacy_config fs d;
  let layers := opush layers leg in
  do xdg <- load_user_xdg_config fs d;
  let layers := opush layers xdg in
  do proj <- discover_project_config fs start_dir;
  let '(layers, ppath) :=
    match proj with
    | Some (p, l) => ((if l_no_inherit l then [] else layers) ++ [l], Some p)
    | None => (layers, None)
    end in
  Rok (fold_left (fun c l => merge_over l c) layers default_config, ppath).

(** src/main.rs:394-427 [load_config]; [explicit] is [--config].  The
    directory used for globbing is the parent of the file used, or the
    working directory. *)
Definition path_parent (p : path) : option path := match p with [] => None | _ :: r => Some r end.
Definition load_config (fs : filesystem) (d : UserDirs) (cwd : path) (explicit : option path) : Config * path :=
  match explicit with
  | Some p =>
      match config_from_file fs p with
      | Rok c => (c, oset (path_parent p) cwd)
      | Rerr => (default_config, cwd)
      end
  | None =>
      match load_cascading fs d cwd with
      | Rok (c, mp) =>
          (c, match mp with Some p => oset (path_parent p) cwd | None => cwd end)
      | Rerr => (default_config, cwd)
      end
  end.

(** src/main.rs:56-103: assembling the options.  [None] is the panic of
    [expect("Invalid line width")]. *)
Definition build_options (c : Config) (cli_width : option nat) : option Options :=
  let lw := match cli_width with
            | Some w => match line_width_new w with Rok v => Some v | Rerr => None end
            | None => Some (c_line_width c)
            end in
  match lw with
  | None => None
  | Some lw => Some {|
      line_width := lw;
      setext_h1 := hc_setext_h1 (c_heading c);
      setext_h2 := hc_setext_h2 (c_heading c);
      heading_sentence_case := hc_sentence_case (c_heading c);
      heading_proper_nouns := hc_proper_nouns (c_heading c);
      heading_common_nouns := hc_common_nouns (c_heading c);
      unordered_marker := ul_marker (c_ul c);
      leading_spaces := ul_leading (c_ul c);
      trailing_spaces := ul_trailing (c_ul c);
      indent_width := ul_indent (c_ul c);
      odd_level_marker := ol_odd (c_ol c);
      even_level_marker := ol_even (c_ol c);
      ordered_list_pad := ol_pad (c_ol c);
      ordered_list_indent_width := ol_indent (c_ol c);
      fence_char := cb_fence_char (c_cb c);
      min_fence_length := cb_min_fence (c_cb c);
      space_after_fence := cb_space (c_cb c);
      default_language := cb_lang (c_cb c);
      thematic_break_style := tb_style (c_tb c);
      thematic_break_leading_spaces := tb_leading (c_tb c);
      curly_double_quotes := pc_dq (c_punct c);
      curly_single_quotes := pc_sq (c_punct c);
      curly_apostrophes := pc_ap (c_punct c);
      ellipsis := pc_ell (c_punct c);
      en_dash := pc_en (c_punct c);
      em_dash := pc_em (c_punct c);
      code_formatters := map (fun e => (fst e, mkCodeFormatter (fst (snd e)) (snd (snd e)))) (cb_formatters (c_cb c))
    |}
  end.

(** src/main.rs:104-116: the two validations done before any file is touched. *)
Inductive cli_setup := SetupPanic | SetupError | SetupOk (o : Options).
Definition cli_options (c : Config) (cli_width : option nat) : cli_setup :=
  match build_options c cli_width with
  | None => SetupPanic
  | Some o =>
      if forallb (fun e => formatter_validate (snd e)) (cb_formatters (c_cb c)) then
        match validate_dash_settings o with Rok _ => SetupOk o | Rerr => SetupError end
      else SetupError
  end.

(** ** JavaScript options, src/wasm.rs *)

(** src/wasm.rs:101-110 [JsDashSetting] *)
Inductive JsDashSetting := JDisabled (b : bool) | JPattern (s : str).
(** src/wasm.rs:112-123 [to_dash_setting] *)
Definition to_dash_setting (j : JsDashSetting) : DashSetting :=
  match j with
  | JDisabled _ => DDisabled
  | JPattern s => match dash_pattern_new s with Rok p => DPattern p | Rerr => DDisabled end
  end.

(** src/wasm.rs:17-98 [JsOptions] *)
Record JsOptions := mkJs {
  j_line_width : option nat; j_setext_h1 : option bool; j_setext_h2 : option bool;
  j_sentence_case : option bool; j_proper_nouns : option (list str); j_common_nouns : option (list str);
  j_unordered_marker : option str; j_leading_spaces : option nat; j_trailing_spaces : option nat;
  j_indent_width : option nat; j_odd_level_marker : option str; j_even_level_marker : option str;
  j_ordered_list_pad : option str; j_ordered_list_indent_width : option nat; j_fence_char : option str;
  j_min_fence_length : option nat; j_space_after_fence : option bool; j_default_language : option str;
  j_thematic_break_style : option str; j_thematic_break_leading_spaces : option nat;
  j_curly_double_quotes : option bool; j_curly_single_quotes : option bool;
  j_curly_apostrophes : option bool; j_ellipsis : option bool;
  j_en_dash : option JsDashSetting; j_em_dash : option JsDashSetting }.

(** [if let Some(v) = x { if let Ok(w) = new(v) { field = w } }] *)
Definition jnew {A B} (new : A -> result B) (o : option A) (d : B) : B :=
  match o with Some v => match new v with Rok w => w | Rerr => d end | None => d end.
(** [if let Some(v) = x { field = f(v) }] *)
Definition jmap {A B} (f : A -> B) (o : option A) (d : B) : B :=
  match o with Some v => f v | None => d end.

(** src/wasm.rs:125-244 [to_options] *)
Definition to_options (j : JsOptions) : Options :=
  let d := default_options in {|
    line_width := jnew line_width_new (j_line_width j) (line_width d);
    setext_h1 := oset (j_setext_h1 j) (setext_h1 d);
    setext_h2 := oset (j_setext_h2 j) (setext_h2 d);
    heading_sentence_case := oset (j_sentence_case j) (heading_sentence_case d);
    heading_proper_nouns := oset (j_proper_nouns j) (heading_proper_nouns d);
    heading_common_nouns := oset (j_common_nouns j) (heading_common_nouns d);
    unordered_marker := jmap (fun s => if seqb s (lit "*") then UAsterisk
                                       else if seqb s (lit "+") then UPlus else UHyphen)
                             (j_unordered_marker j) (unordered_marker d);
    leading_spaces := jnew leading_spaces_new (j_leading_spaces j) (leading_spaces d);
    trailing_spaces := jnew trailing_spaces_new (j_trailing_spaces j) (trailing_spaces d);
    indent_width := jnew indent_width_new (j_indent_width j) (indent_width d);
    odd_level_marker := jmap (fun s => if seqb s (lit ")") then OParenthesis else OPeriod)
                             (j_odd_level_marker j) (odd_level_marker d);
    even_level_marker := jmap (fun s => if seqb s (lit ".") then OPeriod else OParenthesis)
                             (j_even_level_marker j) (even_level_marker d);
    ordered_list_pad := jmap (fun s => if seqb s (lit "end") then PadEnd else PadStart)
                             (j_ordered_list_pad j) (ordered_list_pad d);
    ordered_list_indent_width := jnew indent_width_new (j_ordered_list_indent_width j) (ordered_list_indent_width d);
    fence_char := jmap (fun s => if seqb s (lit "`") then FBacktick else FTilde)
                       (j_fence_char j) (fence_char d);
    min_fence_length := jnew min_fence_length_new (j_min_fence_length j) (min_fence_length d);
    space_after_fence := oset (j_space_after_fence j) (space_after_fence d);
    default_language := oset (j_default_language j) (default_language d);
    thematic_break_style := jnew thematic_break_style_new (j_thematic_break_style j) (thematic_break_style d);
    thematic_break_leading_spaces :=
      jnew leading_spaces_new (j_thematic_break_leading_spaces j) (thematic_break_leading_spaces d);
    curly_double_quotes := oset (j_curly_double_quotes j) (curly_double_quotes d);
    curly_single_quotes := oset (j_curly_single_quotes j) (curly_single_quotes d);
    curly_apostrophes := oset (j_curly_apostrophes j) (curly_apostrophes d);
    ellipsis := oset (j_ellipsis j) (ellipsis d);
    en_dash := jmap to_dash_setting (j_en_dash j) (en_dash d);
    em_dash := jmap to_dash_setting (j_em_dash j) (em_dash d);
    code_formatters := code_formatters d |}.
