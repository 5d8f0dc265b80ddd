(** Independent specifications for configuration properties. *)
From Coq Require Import Bool Arith NArith List.
From Verif Require Import Base OptsModel.
Import ListNotations.

(** Documented ranges of the options (README, config.rs doc comments). *)
Definition printable_ascii_no_space (p : str) : Prop := Forall (fun c => (33 <= c <= 126)%N) p.
Definition dash_setting_ok (d : DashSetting) : Prop :=
  match d with DDisabled => True | DPattern p => p <> [] /\ printable_ascii_no_space p end.

(** CommonMark 4.1 thematic break: up to three spaces of indentation, then
    three or more of one of '-', '_', '*', each followed optionally by any
    number of spaces or tabs, and nothing else. *)
Definition is_tb_marker (c : char) : Prop := c = c_star \/ c = c_dash \/ c = c_us.
Definition is_tb_space (c : char) : Prop := c = c_sp \/ c = c_tab.
Definition count_char (m : char) (s : str) : nat := length (filter (ceq m) s).
Definition cm_thematic_break (line : str) : Prop :=
  exists indent m body,
    line = spaces indent ++ m :: body
    /\ indent <= 3 /\ is_tb_marker m
    /\ Forall (fun c => c = m \/ is_tb_space c) body
    /\ 3 <= count_char m (m :: body).

(** Ranges satisfied by a whole option record. *)
Definition options_in_range (o : Options) : Prop :=
  8 <= line_width o /\ leading_spaces o <= 3 /\ trailing_spaces o <= 3
  /\ 1 <= indent_width o /\ 1 <= ordered_list_indent_width o
  /\ 3 <= min_fence_length o /\ thematic_break_leading_spaces o <= 3
  /\ dash_setting_ok (en_dash o) /\ dash_setting_ok (em_dash o).

(** What a table says of a key: the first entry with that key. *)
Definition value_of {A} (k : str) (t : list (str * A)) : option A :=
  option_map snd (find (fun kv => seqb k (fst kv)) t).
(** The thematic break README.md:245 documents as the default: 37 hyphens. *)
Definition documented_rule : str := join [c_sp] (repeat [c_dash] 37).
