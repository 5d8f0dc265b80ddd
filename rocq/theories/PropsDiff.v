(** C49: what [--diff] prints is a patch that turns the file into its formatted
    form. *)
From Coq Require Import Bool Arith NArith Lia ZifyBool ZifyNat ZifyN String List.
From Verif Require Import Base BaseFacts CliModel DiffModel SpecDiff DiffProof.
Import ListNotations.

(** Nothing is printed exactly when nothing changes. *)
Theorem C49_silent :
  forall hunks name o f, print_diff hunks name o f = [] <-> o = f.
Proof.
  intros hunks name o f. unfold print_diff. split.
  - destruct (seqb o f) eqn:E; [intros _; apply seqb_true; exact E|discriminate].
  - intros ->. rewrite seqb_refl. reflexivity.
Qed.
Print Assumptions C49_silent.

(** Otherwise the diff, read strictly (every context line, every count and
    every position has to be right), turns the one into the other.  Assumed is
    that [similar] found correct hunks for these two texts. *)
Theorem C49_patch_partial :
  forall hunks name o f,
    correct_diff hunks o f -> ~ In c_nl name ->
    plain_text o -> plain_text f -> o <> f ->
    apply_patch (print_diff hunks name o f) o = Some f.
Proof.
  intros hunks name o f D N (xs & -> & X) (ys & -> & Y) Q.
  unfold print_diff. destruct (seqb (text_of xs) (text_of ys)) eqn:E; [apply seqb_true in E; congruence|].
  unfold correct_diff in D. rewrite !diff_text in D by assumption.
  assert (G : forall ls, Forall plain_line ls -> Forall ended (map (fun l => l ++ [c_nl]) ls)).
  { intros ls H. apply Forall_map. eapply Forall_impl; [|exact H]. intros l [P _]. exists l. auto. }
  pose proof (diff_changes _ _ _ _ _ D (G _ X) (G _ Y)) as C. clear G.
  rewrite print_hunks by exact C. clear E.
  set (hl := flat_map hunk_lines (hunks (text_of xs) (text_of ys))) in *.
  assert (R : lit "--- " ++ name ++ [c_nl] ++ lit "+++ " ++ name ++ [c_nl] ++ text_of hl =
              text_of ((lit "--- " ++ name) :: (lit "+++ " ++ name) :: hl)).
  { change ((lit "--- " ++ name) :: (lit "+++ " ++ name) :: hl) with ([lit "--- " ++ name] ++ [lit "+++ " ++ name] ++ hl).
    rewrite !text_app. unfold text_of at 2 3. cbn [flat_map]. rewrite !app_nil_r, <- !app_assoc. reflexivity. }
  rewrite R. unfold apply_patch.
  rewrite ended_text.
  2:{ apply Forall_cons; [|apply Forall_cons; [|apply hunks_no_nl; exact C]].
      - intro I. apply in_app_iff in I as [I|I]; [vm_compute in I; intuition discriminate|auto].
      - intro I. apply in_app_iff in I as [I|I]; [vm_compute in I; intuition discriminate|auto]. }
  rewrite ended_text by (eapply Forall_impl; [|exact X]; intros l [P _]; exact P).
  assert (S : forall p, starts_with p (p ++ name) = true).
  { intro p. unfold starts_with. rewrite strip_app. reflexivity. }
  rewrite !S. cbn [andb].
  assert (M : forall ls : list str, map bare (map (fun l => l ++ [c_nl]) ls) = ls).
  { intro ls. rewrite map_map. rewrite <- (map_id ls) at 2. apply map_ext. intro l. apply bare_line. }
  pose proof (follow_hunks _ _ _ _ _ D) as F. rewrite !M in F. change (N.of_nat 0) with 0%N in F. unfold hl. rewrite F. reflexivity.
Qed.
Print Assumptions C49_patch_partial.

(** For a whole run: what is printed falls into one part for each file, empty
    for a file that does not change, a patch otherwise. *)
Theorem C49_run_partial :
  forall fmt hunks fs files fs' out,
    (forall o f, correct_diff hunks o f) ->
    (forall p s f, In p files -> fs p = Text s -> fmt s = Some f -> ~ In c_nl p /\ plain_text s /\ plain_text f) ->
    process_in_order fmt (print_diff hunks) fs files = (fs', out, false) ->
    exists parts, out = List.concat parts /\
      Forall2 (fun p part => exists s f, fs p = Text s /\ fmt s = Some f /\
                 (part = [] /\ s = f \/ apply_patch part s = Some f)) files parts.
Proof.
  intros fmt hunks fs files. induction files as [|p r IH]; intros fs' out D P H.
  - cbn in H. inversion H; subst. exists []. split; [reflexivity|constructor].
  - cbn [process_in_order read_file] in H. destruct (fs p) as [| |s] eqn:E; try discriminate H.
    destruct (fmt s) as [f|] eqn:F; [|discriminate H].
    destruct (process_in_order fmt (print_diff hunks) fs r) as [[fs2 pr] bad] eqn:R. inversion H; subst.
    destruct (IH _ _ D (fun q s f I => P q s f (or_intror I)) eq_refl) as (parts & -> & G).
    exists (print_diff hunks p s f :: parts). split; [reflexivity|]. constructor; [|exact G].
    exists s, f. split; [exact E|]. split; [exact F|]. destruct (P p s f (or_introl eq_refl) E F) as (N & S1 & S2).
    destruct (seqb s f) eqn:Q.
    + apply seqb_true in Q. subst f. left. split; [apply C49_silent; reflexivity|reflexivity].
    + right. apply C49_patch_partial; auto. intros ->. rewrite seqb_refl in Q. discriminate.
Qed.
Print Assumptions C49_run_partial.

(** ** What is missing: texts whose last line is not ended, lone carriage
    returns.  There the diff does not say what the file contains: no way of
    reading it can get the formatted text right for both files. *)
Definition line_end (cs : list str) : str := flat_map (fun s => s ++ [c_nl]) cs.

(** "\ No newline at end of file" is not printed. *)
Theorem C49_final_newline_refuted :
  exists hunks name o1 o2 f,
    correct_diff hunks o1 f /\ correct_diff hunks o2 f /\ plain_text o2 /\ plain_text f /\ o1 <> o2 /\
    print_diff hunks name o1 f = print_diff hunks name o2 f /\ print_diff hunks name o1 f <> [].
Proof.
  exists (fun o f => [mkHunk 0 0 [(Delete, o); (Insert, f)]]), (lit "a.md"), (lit "x"), (lit "x" ++ [c_nl]), (lit "y" ++ [c_nl]).
  split. { exact (diff_hunk 0 0 [] [(Delete, lit "x"); (Insert, lit "y" ++ [c_nl])] [] [] [] ltac:(discriminate) (diff_end _ _ _)). }
  split. { exact (diff_hunk 0 0 [] [(Delete, lit "x" ++ [c_nl]); (Insert, lit "y" ++ [c_nl])] [] [] [] ltac:(discriminate) (diff_end _ _ _)). }
  split. { exists [lit "x"]. split; [reflexivity|]. constructor; [|constructor]. split; [vm_compute; intuition discriminate|].
           intros [|? [|]] b Z; discriminate Z. }
  split. { exists [lit "y"]. split; [reflexivity|]. constructor; [|constructor]. split; [vm_compute; intuition discriminate|].
           intros [|? [|]] b Z; discriminate Z. }
  split; [discriminate|]. split; [reflexivity|discriminate].
Qed.
Print Assumptions C49_final_newline_refuted.

(** A lone carriage return is printed as the end of a line, as one with a line
    feed would be. *)
Definition cr_old : str := lit "a" ++ [c_cr] ++ lit "b" ++ [c_nl].
Definition crlf_old : str := lit "a" ++ [c_cr; c_nl] ++ lit "b" ++ [c_nl].
Definition cr_new : str := lit "c" ++ [c_nl].
Theorem C49_carriage_return_refuted :
  exists hunks name o1 o2 f,
    correct_diff hunks o1 f /\ correct_diff hunks o2 f /\ plain_text o2 /\ plain_text f /\ o1 <> o2 /\
    print_diff hunks name o1 f = print_diff hunks name o2 f /\ print_diff hunks name o1 f <> [].
Proof.
  exists (fun o f => [mkHunk 0 0 (map (pair Delete) (diff_lines [] o) ++ map (pair Insert) (diff_lines [] f))]), (lit "a.md"), cr_old, crlf_old, cr_new.
  split. { exact (diff_hunk 0 0 [] [(Delete, lit "a" ++ [c_cr]); (Delete, lit "b" ++ [c_nl]); (Insert, lit "c" ++ [c_nl])] [] [] [] ltac:(discriminate) (diff_end _ _ _)). }
  split. { exact (diff_hunk 0 0 [] [(Delete, lit "a" ++ [c_cr; c_nl]); (Delete, lit "b" ++ [c_nl]); (Insert, lit "c" ++ [c_nl])] [] [] [] ltac:(discriminate) (diff_end _ _ _)). }
  split. { exists [lit "a" ++ [c_cr]; lit "b"]. split; [reflexivity|]. constructor; [|constructor; [|constructor]].
           - split; [vm_compute; intuition discriminate|]. intros [|? [|? [|]]] b Z; try discriminate Z. injection Z as _ Z. auto.
           - split; [vm_compute; intuition discriminate|]. intros [|? [|]] b Z; discriminate Z. }
  split. { exists [lit "c"]. split; [reflexivity|]. constructor; [|constructor]. split; [vm_compute; intuition discriminate|].
           intros [|? [|]] b Z; discriminate Z. }
  split; [discriminate|]. split; [reflexivity|discriminate].
Qed.
Print Assumptions C49_carriage_return_refuted.

(** ** Example: a file of twelve lines whose second and last line change, with
    three lines of context. *)
Definition old49 : str := line_end (map lit ["T"; "="; ""; "a"; "b"; "c"; "d"; "e"; "f"; "g"; "h"; "*x*"]%string).
Definition new49 : str := line_end (map lit ["T"; "=="; ""; "a"; "b"; "c"; "d"; "e"; "f"; "g"; "h"; "_x_"; "y"]%string).
Definition kept (l : string) : change := (Equal, lit l ++ [c_nl]).
Definition hunks49 : list hunk :=
  [mkHunk 0 0 [kept "T"; (Delete, lit "=" ++ [c_nl]); (Insert, lit "==" ++ [c_nl]); kept ""; kept "a"; kept "b"];
   mkHunk 8 8 [kept "f"; kept "g"; kept "h"; (Delete, lit "*x*" ++ [c_nl]); (Insert, lit "_x_" ++ [c_nl]); (Insert, lit "y" ++ [c_nl])]].
Example C49_correct : correct_diff (fun _ _ => hunks49) old49 new49.
Proof.
  pose proof (diff_end 12 13 []) as E.
  pose proof (diff_hunk 5 5 (map (fun l => lit l ++ [c_nl]) ["c"; "d"; "e"]%string) (h_changes (nth 1 hunks49 (mkHunk 0 0 []))) [] [] [] ltac:(discriminate) E) as H.
  exact (diff_hunk 0 0 [] (h_changes (nth 0 hunks49 (mkHunk 0 0 []))) _ _ _ ltac:(discriminate) H).
Qed.
Example C49_printed : print_diff (fun _ _ => hunks49) (lit "README.md") old49 new49 =
  line_end (map lit ["--- README.md"; "+++ README.md"; "@@ -1,5 +1,5 @@"; " T"; "-="; "+=="; " "; " a"; " b";
    "@@ -9,4 +9,5 @@"; " f"; " g"; " h"; "-*x*"; "+_x_"; "+y"]%string).
Proof. vm_compute. reflexivity. Qed.
Example C49_example : apply_patch (print_diff (fun _ _ => hunks49) (lit "README.md") old49 new49) old49 = Some new49.
Proof. vm_compute. reflexivity. Qed.
