(** C61: formatters matter only by the code they return. *)
From Coq Require Import Bool Arith NArith Lia ZifyBool ZifyNat ZifyN String List.
From Verif Require Import Base BaseFacts OptsModel WrapModel CodeModel TableModel AstModel StateModel
  InlineModel WarnModel SerModel SpecContext SpecCode SpecParts SpecAnswer AnswerProof.
Import ListNotations.

(** Two outcomes: the same text, and the same warnings about the document. *)
Definition same_but_formatters (x y : res (str * list warning)) : Prop :=
  match x, y with
  | Ok (out, ws), Ok (out', ws') => out' = out /\ about_document ws' = about_document ws
  | Panic, Panic => True
  | _, _ => False
  end.

Section Whole.
Variable U : Uni.
Variable PN : list (str * str).
Variable ENT : str -> option str.
Variable parse : str -> node.
Variable checks : bool.
Local Notation fmt := (format_with_warnings U PN ENT parse).

(** Whatever commands are configured and whichever build runs: if the blocks of
    code come back the same, the document comes out the same. *)
Theorem C61_answers : forall o B fs B' input,
  returns_same o B fs B' (parse input) ->
  same_but_formatters (fmt o B checks input) (fmt (with_formatters o fs) B' checks input).
Proof.
  intros o B fs B' input H. unfold format_with_warnings. destruct (is_nil input); [split; reflexivity|].
  pose proof (root_answer U PN ENT o fs B B' (lines input) (ends_with_newline input) checks (parse input) H) as M.
  destruct (serialize_root U PN ENT o B _ _ _ _) as [s|], (serialize_root U PN ENT _ B' _ _ _ _) as [t|]; cbn [rbind meet same_but_formatters] in *; try exact M.
  destruct M as (ws & cl & -> & A). split; [reflexivity|exact A].
Qed.

(** Commands that fail, or return the code they are given, change nothing: the
    output is the one without any formatter. *)
Corollary C61_invisible : forall o run input,
  (forall i language f code, In (language, f) (code_formatters o) ->
     match run i (cf_command f) code (cf_timeout f) with inl x => x = code | inr _ => True end) ->
  same_but_formatters (fmt o (Native run) checks input) (fmt (with_formatters o []) (Native run) checks input).
Proof.
  intros o run input H. apply C61_answers. intros info code q cs language i j _ _. cbn [answer assoc_str].
  assert (K : forall (fs : list (str * CodeFormatter)) f, assoc_str language fs = Some f -> In (language, f) fs).
  { clear. induction fs as [|[k f'] fs IH]; intros f E; [discriminate E|]. cbn [assoc_str] in E. destruct (seqb language k) eqn:Q; [|right; apply IH; exact E].
    apply seqb_true in Q. injection E as ->. left. congruence. }
  destruct (assoc_str language (code_formatters o)) as [f|] eqn:E; [|reflexivity]. specialize (H i language f code (K _ _ E)).
  destruct (run i (cf_command f) code (cf_timeout f)); congruence.
Qed.

(** The WebAssembly build, given a callback that returns what the commands
    return, writes what the native build writes. *)
Corollary C61_builds : forall o run cb fs input,
  (forall i j language code, match cb j language code with Some x => x | None => code end = answer (code_formatters o) (Native run) i language code) ->
  same_but_formatters (fmt o (Native run) checks input) (fmt (with_formatters o fs) (Wasm (Some cb)) checks input).
Proof. intros o run cb fs input H. apply C61_answers. intros info code q cs language i j _ _. apply H. Qed.

(** Commands for languages in which no block is asked do not matter. *)
Corollary C61_other_languages : forall o run fs input, steady (Native run) ->
  (forall info code q cs language, within (Node (NCodeBlock info code) q cs) (parse input) -> asked_as o info language ->
     assoc_str language fs = assoc_str language (code_formatters o)) ->
  same_but_formatters (fmt o (Native run) checks input) (fmt (with_formatters o fs) (Native run) checks input).
Proof.
  intros o run fs input S H. apply C61_answers. intros info code q cs language i j W A. cbn [answer]. rewrite (H _ _ _ _ _ W A).
  destruct (assoc_str language (code_formatters o)) as [f|]; [|reflexivity]. rewrite (S j i). reflexivity.
Qed.
End Whole.
Print Assumptions C61_answers.
Print Assumptions C61_invisible.
Print Assumptions C61_builds.
Print Assumptions C61_other_languages.

(** A document with an undefined reference and two blocks of code, one in an
    item.  The command for rust fails, that for python returns what it is given. *)
Definition input61 : str := lit "A [x] b.

 -  i

    ~~~~ rust
    fn
    ~~~~

~~~~ python k
def
~~~~
".
Definition pos61 (l l' : nat) : sourcepos := mkPos l 1 l' 9.
Definition tree61 (_ : str) : node :=
  Node NDocument (pos61 1 11)
    [ Node NParagraph (pos61 1 1) [Node (NText (lit "A [x] b.")) (mkPos 1 1 1 8) []];
      Node (NList Bullet false) (pos61 3 7) [Node NItem (mkPos 3 2 7 8)
        [ Node NParagraph (mkPos 3 5 3 5) [Node (NText (lit "i")) (mkPos 3 5 3 5) []];
          Node (NCodeBlock (lit "rust") (lit "fn" ++ [c_nl])) (mkPos 5 5 7 8) [] ]];
      Node (NCodeBlock (lit "python k") (lit "def" ++ [c_nl])) (pos61 9 11) [] ].
Definition formatters61 : list (str * CodeFormatter) :=
  [(lit "rust", mkCodeFormatter [lit "bad"] 5); (lit "python", mkCodeFormatter [lit "cat"] 5); (lit "go", mkCodeFormatter [lit "gofmt"] 5)].
Definition run61 (_ : nat) (command : list str) (code : str) (_ : N) : str + FormatterError :=
  match command with
  | [c] => if seqb c (lit "bad") then inr TimeoutErr else if seqb c (lit "cat") then inl code else inl (lit "other" ++ [c_nl])
  | _ => inr EmptyCommand
  end.
Definition fmt61 (fs : list (str * CodeFormatter)) (B : backend) : res (str * list warning) :=
  format_with_warnings uni_ascii [] (fun _ => None) tree61 (with_formatters default_options fs) B true input61.
Definition lines61 (r : res (str * list warning)) : list nat := match r with Ok (_, ws) => map warn_line ws | Panic => [] end.
Example C61_witness :
  lines61 (fmt61 formatters61 (Native run61)) = [1; 0] /\ lines61 (fmt61 [] (Native run61)) = [1]
  /\ (exists out ws ws', fmt61 formatters61 (Native run61) = Ok (out, ws) /\ fmt61 [] (Native run61) = Ok (out, ws') /\ out <> [])
  /\ returns_same (with_formatters default_options formatters61) (Native run61) [] (Native run61) (tree61 input61).
Proof.
  split; [vm_compute; reflexivity|]. split; [vm_compute; reflexivity|]. split.
  - do 3 eexists. split; [vm_compute; reflexivity|]. split; [vm_compute; reflexivity|]. discriminate.
  - intros info code q cs language i j W (_ & _ & ->). unfold tree61 in W.
    repeat match goal with
    | X : within _ (Node _ _ _) |- _ => inversion X; subst; clear X
    | X : In _ (_ :: _) |- _ => destruct X as [<-|X]
    | X : In _ [] |- _ => destruct X
    end; vm_compute; reflexivity.
Qed.
(** A command that does return other code changes the output. *)
Example C61_other_code :
  match fmt61 [(lit "rust", mkCodeFormatter [lit "x"] 5)] (Native run61), fmt61 [] (Native run61) with
  | Ok (a, _), Ok (b, _) => seqb a b
  | _, _ => true
  end = false.
Proof. vm_compute. reflexivity. Qed.
