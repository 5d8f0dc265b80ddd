(** Proofs about configuration. *)
From Coq Require Import Bool Arith NArith ZArith Lia ZifyBool ZifyNat ZifyN String List.
From Verif Require Import Base BaseFacts OptsModel ConfigModel SpecConfig.
Import ListNotations.

(** ** Newtypes *)
Lemma leading_ok : forall v w, leading_spaces_new v = Rok w <-> v <= 3 /\ w = v.
Proof. intros. unfold leading_spaces_new. destruct (Nat.ltb_spec 3 v); split; intro H0; try discriminate; try lia. inversion H0; lia. destruct H0; subst; auto. Qed.
Lemma trailing_ok : forall v w, trailing_spaces_new v = Rok w <-> v <= 3 /\ w = v.
Proof. exact leading_ok. Qed.
Lemma indent_ok : forall v w, indent_width_new v = Rok w <-> 1 <= v /\ w = v.
Proof. intros. unfold indent_width_new. destruct (Nat.ltb_spec v 1); split; intro H0; try discriminate; try lia. inversion H0; lia. destruct H0; subst; auto. Qed.
Lemma line_width_ok : forall v w, line_width_new v = Rok w <-> 8 <= v /\ w = v.
Proof. intros. unfold line_width_new. destruct (Nat.ltb_spec v 8); split; intro H0; try discriminate; try lia. inversion H0; lia. destruct H0; subst; auto. Qed.
Lemma min_fence_ok : forall v w, min_fence_length_new v = Rok w <-> 3 <= v /\ w = v.
Proof. intros. unfold min_fence_length_new. destruct (Nat.ltb_spec v 3); split; intro H0; try discriminate; try lia. inversion H0; lia. destruct H0; subst; auto. Qed.

Lemma graphic_iff : forall c, is_ascii_graphic c = true <-> (33 <= c <= 126)%N.
Proof. intro c. unfold is_ascii_graphic. lia. Qed.
Lemma dash_pattern_ok : forall p w, dash_pattern_new p = Rok w <-> (p <> [] /\ printable_ascii_no_space p) /\ w = p.
Proof.
  intros. unfold dash_pattern_new, printable_ascii_no_space. destruct (is_nil p) eqn:E.
  - apply is_nil_true in E. subst. split; [discriminate|]. intros [[H _] _]. congruence.
  - apply is_nil_false in E. destruct (existsb (fun c => negb (is_ascii_graphic c)) p) eqn:F.
    + split; [discriminate|]. intros [[_ H] _]. apply existsb_exists in F. destruct F as [x [Hx Hg]].
      rewrite Forall_forall in H. specialize (H x Hx). apply graphic_iff in H. rewrite H in Hg. discriminate.
    + assert (Forall (fun c => (33 <= c <= 126)%N) p).
      { apply Forall_forall. intros x Hx. apply graphic_iff. destruct (is_ascii_graphic x) eqn:G; auto.
        exfalso. assert (existsb (fun c => negb (is_ascii_graphic c)) p = true).
        { apply existsb_exists. exists x. rewrite G. auto. } congruence. }
      split; intro H0.
      * inversion H0; subst; auto.
      * destruct H0; subst; auto.
Qed.

(** ** Thematic break styles *)
Definition tb_char (c : char) : Prop := is_tb_marker c \/ is_tb_space c.
Lemma tb_count_spec : forall s a h u, 
  (Forall tb_char s /\ tb_count a h u s = Some (a + count_char c_star s, h + count_char c_dash s, u + count_char c_us s))
  \/ (~ Forall tb_char s /\ tb_count a h u s = None).
Proof.
  induction s as [|c s IH]; intros a h u; cbn [tb_count].
  - left. split; [constructor|]. cbn. rewrite !Nat.add_0_r. reflexivity.
  - destruct (ceq_spec c c_star).
    + subst. destruct (IH (S a) h u) as [[F E]|[F E]]; rewrite E; [left|right].
      * split. { constructor; auto. left. left. reflexivity. }
        unfold count_char. cbn. repeat f_equal; lia.
      * split; auto. intro G. inversion G; auto.
    + destruct (ceq_spec c c_dash).
      * subst. destruct (IH a (S h) u) as [[F E]|[F E]]; rewrite E; [left|right].
        -- split. { constructor; auto. left. right. left. reflexivity. }
           unfold count_char. cbn. repeat f_equal; lia.
        -- split; auto. intro G. inversion G; auto.
      * destruct (ceq_spec c c_us).
        -- subst. destruct (IH a h (S u)) as [[F E]|[F E]]; rewrite E; [left|right].
           ++ split. { constructor; auto. left. right. right. reflexivity. }
              unfold count_char. cbn. repeat f_equal; lia.
           ++ split; auto. intro G. inversion G; auto.
        -- assert (Hz : forall m, In m [c_star; c_dash; c_us] -> ceq m c = false).
           { intros m Hm. apply ceq_false. cbn in Hm. intuition congruence. }
           destruct (ceq c c_sp || ceq c c_tab) eqn:Ec.
           ++ destruct (IH a h u) as [[F E]|[F E]]; rewrite E; [left|right].
              ** split. { constructor; auto. right. apply orb_true_iff in Ec. destruct Ec as [Ec|Ec]; apply ceq_true in Ec; [left|right]; auto. }
                 unfold count_char. cbn [filter].
                 rewrite !Hz; [reflexivity| | |]; cbn; auto.
              ** split; auto. intro G. inversion G; auto.
           ++ right. split; auto. intro G. inversion G as [|x y [[H|[H|H]]|[H|H]]]; subst; try congruence; discriminate.
Qed.

Lemma count_char_app : forall m a b, count_char m (a ++ b) = count_char m a + count_char m b.
Proof. intros. unfold count_char. rewrite filter_app, app_length. reflexivity. Qed.
Lemma count_char_none : forall m s, ~ In m s -> count_char m s = 0.
Proof.
  intros m s H. unfold count_char. induction s as [|c s IH]; auto. cbn [filter].
  destruct (ceq_spec m c); [exfalso; apply H; left; auto|]. apply IH. intro; apply H; right; auto.
Qed.
Lemma ws_not_marker : forall m t, is_tb_marker m -> Forall (fun c => is_ws c = true) t -> ~ In m t.
Proof.
  intros m t Hm H Hin. rewrite Forall_forall in H. specialize (H m Hin).
  destruct Hm as [->|[->| ->]]; discriminate.
Qed.

Lemma style_accepted : forall style w, thematic_break_style_new style = Rok w ->
  w = style /\ Forall tb_char (trim style) /\ exists m, is_tb_marker m /\ 3 <= count_char m (trim style).
Proof.
  intros style w. unfold thematic_break_style_new. destruct (is_nil (trim style)); [discriminate|].
  destruct (tb_count_spec (trim style) 0 0 0) as [[F E]|[F E]]; rewrite E; [|discriminate].
  cbn [Nat.add]. set (l := filter (fun n => 3 <=? n) _).
  destruct (is_nil l) eqn:N; [discriminate|]. destruct (1 <? List.length l); [discriminate|].
  intro H. inversion H; subst. repeat split; auto. apply is_nil_false in N.
  destruct l as [|x l'] eqn:L; [congruence|]. assert (In x l) by (rewrite L; left; auto).
  unfold l in H0. apply filter_In in H0. destruct H0 as [H0 H1]. apply Nat.leb_le in H1.
  cbn in H0. destruct H0 as [<-|[<-|[<-|[]]]].
  - exists c_star. split; auto. left; auto.
  - exists c_dash. split; auto. right; left; auto.
  - exists c_us. split; auto. right; right; auto.
Qed.

Lemma trim_start_nonws : forall c r, is_ws c = false -> trim_start (c :: r) = c :: r.
Proof. intros. unfold trim_start. cbn. rewrite H. reflexivity. Qed.

(** Accepted styles that use one kind of marker and start with it are valid. *)
Lemma style_valid : forall style m body lead,
  thematic_break_style_new style = Rok style ->
  style = m :: body -> is_tb_marker m -> Forall (fun c => c = m \/ is_tb_space c) body -> lead <= 3 ->
  cm_thematic_break (spaces lead ++ style).
Proof.
  intros style m body lead H E Hm Hb Hl. subst style.
  exists lead, m, body. repeat split; auto.
  apply style_accepted in H. destruct H as [_ [_ [m' [Hm' Hc]]]].
  destruct (trim_app (m :: body)) as [a [b [E [Ha Hb']]]].
  assert (Hin : 3 <= count_char m' (m :: body)).
  { rewrite E, !count_char_app. lia. }
  assert (m' = m).
  { destruct (ceq_spec m' m); auto. exfalso. rewrite count_char_none in Hin; [lia|].
    intros [K|K]; [congruence|]. rewrite Forall_forall in Hb. destruct (Hb m' K) as [K2|[K2|K2]]; [congruence| |];
    subst; destruct Hm' as [K3|[K3|K3]]; discriminate. }
  subst. exact Hin.
Qed.

Lemma trim_keeps_count : forall m s, is_tb_marker m -> count_char m (trim s) = count_char m s.
Proof.
  intros m s Hm. destruct (trim_app s) as [a [b [E [Ha Hb]]]].
  rewrite E at 2. rewrite !count_char_app. rewrite (count_char_none m a), (count_char_none m b); [lia| |];
  apply ws_not_marker; auto.
Qed.

(** Every valid thematic break line without indentation is accepted. *)
Lemma style_complete : forall m body, is_tb_marker m -> Forall (fun c => c = m \/ is_tb_space c) body ->
  3 <= count_char m (m :: body) -> thematic_break_style_new (m :: body) = Rok (m :: body).
Proof.
  intros m body Hm Hb Hc. unfold thematic_break_style_new.
  set (s := m :: body) in *.
  assert (Ftb : Forall tb_char (trim s)).
  { destruct (trim_app s) as [a [b [E _]]]. assert (F : Forall tb_char s).
    { constructor; [left; auto|]. eapply Forall_impl; [|exact Hb]. intros c [->|K]; [left; auto|right; auto]. }
    rewrite E in F. apply Forall_app in F. destruct F as [_ F]. apply Forall_app in F. apply F. }
  assert (Hc' : 3 <= count_char m (trim s)) by (rewrite trim_keeps_count; auto).
  destruct (is_nil (trim s)) eqn:N.
  { apply is_nil_true in N. rewrite N in Hc'. cbn in Hc'. lia. }
  destruct (tb_count_spec (trim s) 0 0 0) as [[F E]|[F E]]; [|tauto]. rewrite E. cbn [Nat.add].
  assert (Z : forall m', is_tb_marker m' -> m' <> m -> count_char m' (trim s) = 0).
  { intros m' Hm' Hne. rewrite trim_keeps_count; auto. apply count_char_none.
    intros [K|K]; [congruence|]. rewrite Forall_forall in Hb. destruct (Hb m' K) as [K2|[K2|K2]]; [congruence| |];
    subst; destruct Hm' as [K3|[K3|K3]]; discriminate. }
  destruct Hm as [->|[->| ->]].
  - rewrite (Z c_dash), (Z c_us); unfold is_tb_marker; auto; try discriminate.
    cbn [filter]. replace (3 <=? count_char c_star (trim s)) with true by (symmetry; apply Nat.leb_le; auto). reflexivity.
  - rewrite (Z c_star), (Z c_us); unfold is_tb_marker; auto; try discriminate.
    cbn [filter]. replace (3 <=? count_char c_dash (trim s)) with true by (symmetry; apply Nat.leb_le; auto). reflexivity.
  - rewrite (Z c_star), (Z c_dash); unfold is_tb_marker; auto; try discriminate.
    cbn [filter]. replace (3 <=? count_char c_us (trim s)) with true by (symmetry; apply Nat.leb_le; auto). reflexivity.
Qed.

(** ** Ranges through the configuration file *)
Definition cfg_in_range (c : Config) : Prop :=
  8 <= c_line_width c /\ ul_leading (c_ul c) <= 3 /\ ul_trailing (c_ul c) <= 3
  /\ 1 <= ul_indent (c_ul c) /\ 1 <= ol_indent (c_ol c) /\ 3 <= cb_min_fence (c_cb c)
  /\ tb_leading (c_tb c) <= 3 /\ dash_setting_ok (pc_en (c_punct c)) /\ dash_setting_ok (pc_em (c_punct c)).

Lemma rbind_ok : forall A B (x : result A) (f : A -> result B) b,
  rbind x f = Rok b -> exists a, x = Rok a /\ f a = Rok b.
Proof. intros A B [a|] f b H; [eauto|discriminate]. Qed.
Ltac inv_do := repeat match goal with
  | H : rbind _ _ = Rok _ |- _ => apply rbind_ok in H; let a := fresh "x" in let E := fresh "E" in destruct H as [a [E H]]
  | H : Rok _ = Rok _ |- _ => injection H as H; try subst
  end.

Lemma field_range : forall A (P : A -> Prop) t k f d x,
  field t k f d = Rok x -> P d -> (forall v y, f v = Rok y -> P y) -> P x.
Proof. intros A P t k f d x H Hd Hf. unfold field in H. destruct (tlookup (lit k) t); [eauto|]. congruence. Qed.
Lemma ofield_range : forall A (P : A -> Prop) t k f x,
  ofield t k f = Rok x -> (forall v y, f v = Rok y -> P y) -> match x with Some y => P y | None => True end.
Proof.
  intros A P t k f x H Hf. unfold ofield in H. destruct (tlookup (lit k) t); inv_do; auto. eauto.
Qed.

Lemma de_leading_range : forall v y, de_leading v = Rok y -> y <= 3.
Proof. intros v y H. unfold de_leading in H. inv_do. apply leading_ok in H. lia. Qed.
Lemma de_trailing_range : forall v y, de_trailing v = Rok y -> y <= 3.
Proof. intros v y H. unfold de_trailing in H. inv_do. apply trailing_ok in H. lia. Qed.
Lemma de_indent_range : forall v y, de_indent v = Rok y -> 1 <= y.
Proof. intros v y H. unfold de_indent in H. inv_do. apply indent_ok in H. lia. Qed.
Lemma de_line_width_range : forall v y, de_line_width v = Rok y -> 8 <= y.
Proof. intros v y H. unfold de_line_width in H. inv_do. apply line_width_ok in H. lia. Qed.
Lemma de_min_fence_range : forall v y, de_min_fence v = Rok y -> 3 <= y.
Proof. intros v y H. unfold de_min_fence in H. inv_do. apply min_fence_ok in H. lia. Qed.
Lemma de_dash_range : forall v y, de_dash v = Rok y -> dash_setting_ok y.
Proof.
  intros v y H. unfold de_dash in H. destruct v; try discriminate.
  - inv_do. apply dash_pattern_ok in E. destruct E as [E ->]. exact E.
  - destruct b; [discriminate|]. inv_do. exact I.
Qed.

Definition ul_range (u : UnorderedListConfig) := ul_leading u <= 3 /\ ul_trailing u <= 3 /\ 1 <= ul_indent u.
Definition ol_range (u : OrderedListConfig) := 1 <= ol_indent u.
Definition cb_range (u : CodeBlockConfig) := 3 <= cb_min_fence u.
Definition tb_range (u : ThematicBreakConfig) := tb_leading u <= 3.
Definition pc_range (u : PunctuationConfig) := dash_setting_ok (pc_en u) /\ dash_setting_ok (pc_em u).

Lemma default_dash_ok : dash_setting_ok (DPattern (lit "--")).
Proof. split; [discriminate|]. repeat constructor; discriminate. Qed.

Lemma de_ul_range : forall t u, de_ul t = Rok u -> ul_range u.
Proof.
  intros t u H. unfold de_ul in H. inv_do. unfold ul_range; cbn. repeat split.
  - eapply (field_range _ (fun n => n <= 3)); [eassumption|first [exact I|exact default_dash_ok|cbn; lia]|apply de_leading_range].
  - eapply (field_range _ (fun n => n <= 3)); [eassumption|first [exact I|exact default_dash_ok|cbn; lia]|apply de_trailing_range].
  - eapply (field_range _ (fun n => 1 <= n)); [eassumption|first [exact I|exact default_dash_ok|cbn; lia]|apply de_indent_range].
Qed.
Lemma de_ol_range : forall t u, de_ol t = Rok u -> ol_range u.
Proof.
  intros t u H. unfold de_ol in H. inv_do. unfold ol_range; cbn.
  eapply (field_range _ (fun n => 1 <= n)); [eassumption|first [exact I|exact default_dash_ok|cbn; lia]|apply de_indent_range].
Qed.
Lemma de_cb_range : forall t u, de_cb t = Rok u -> cb_range u.
Proof.
  intros t u H. unfold de_cb in H. inv_do. unfold cb_range; cbn.
  eapply (field_range _ (fun n => 3 <= n)); [eassumption|first [exact I|exact default_dash_ok|cbn; lia]|apply de_min_fence_range].
Qed.
Lemma de_tb_range : forall t u, de_tb t = Rok u -> tb_range u.
Proof.
  intros t u H. unfold de_tb in H. inv_do. unfold tb_range; cbn.
  eapply (field_range _ (fun n => n <= 3)); [eassumption|first [exact I|exact default_dash_ok|cbn; lia]|apply de_leading_range].
Qed.
Lemma de_pc_range : forall t u, de_pc t = Rok u -> pc_range u.
Proof.
  intros t u H. unfold de_pc in H. inv_do. unfold pc_range; cbn. split.
  - eapply (field_range _ dash_setting_ok); [eassumption|first [exact I|exact default_dash_ok|cbn; lia]|apply de_dash_range].
  - eapply (field_range _ dash_setting_ok); [eassumption|first [exact I|exact default_dash_ok|cbn; lia]|apply de_dash_range].
Qed.

Lemma de_table_range : forall A (P : A -> Prop) f, (forall t u, f t = Rok u -> P u) ->
  forall v y, de_table f v = Rok y -> P y.
Proof. intros A P f H v y E. destruct v; try discriminate. eauto. Qed.

Lemma default_config_range : cfg_in_range default_config.
Proof. unfold cfg_in_range; cbn. pose proof default_dash_ok. repeat split; auto; try lia; try exact I; apply H. Qed.

Lemma de_config_range : forall t c, de_config t = Rok c -> cfg_in_range c.
Proof.
  intros t c H. unfold de_config in H. inv_do. unfold cfg_in_range; cbn.
  assert (ul_range x5) by (eapply (field_range _ ul_range); [eauto|unfold ul_range; cbn; lia|apply de_table_range, de_ul_range]).
  assert (ol_range x6) by (eapply (field_range _ ol_range); [eauto|unfold ol_range; cbn; lia|apply de_table_range, de_ol_range]).
  assert (cb_range x7) by (eapply (field_range _ cb_range); [eauto|unfold cb_range; cbn; lia|apply de_table_range, de_cb_range]).
  assert (tb_range x8) by (eapply (field_range _ tb_range); [eauto|unfold tb_range; cbn; lia|apply de_table_range, de_tb_range]).
  assert (pc_range x9) by (eapply (field_range _ pc_range); [eauto|split; [exact I|apply default_dash_ok]|apply de_table_range, de_pc_range]).
  assert (8 <= x0) by (eapply (field_range _ (fun n => 8 <= n)); [eauto|lia|apply de_line_width_range]).
  unfold ul_range, ol_range, cb_range, tb_range, pc_range in *. tauto.
Qed.

Definition opt_P {A} (P : A -> Prop) (o : option A) : Prop := match o with Some y => P y | None => True end.
Definition layer_range (l : ConfigLayer) : Prop :=
  opt_P (fun n => 8 <= n) (l_line_width l) /\ opt_P ul_range (l_ul l) /\ opt_P ol_range (l_ol l)
  /\ opt_P cb_range (l_cb l) /\ opt_P tb_range (l_tb l) /\ opt_P pc_range (l_punct l).
Lemma de_layer_range : forall t l, de_layer t = Rok l -> layer_range l.
Proof.
  intros t l H. unfold de_layer in H. inv_do. unfold layer_range; cbn. repeat split.
  - eapply (ofield_range _ (fun n => 8 <= n)); [eassumption|apply de_line_width_range].
  - eapply (ofield_range _ ul_range); [eassumption|apply de_table_range, de_ul_range].
  - eapply (ofield_range _ ol_range); [eassumption|apply de_table_range, de_ol_range].
  - eapply (ofield_range _ cb_range); [eassumption|apply de_table_range, de_cb_range].
  - eapply (ofield_range _ tb_range); [eassumption|apply de_table_range, de_tb_range].
  - eapply (ofield_range _ pc_range); [eassumption|apply de_table_range, de_pc_range].
Qed.
Lemma oset_P : forall A (P : A -> Prop) o b, opt_P P o -> P b -> P (oset o b).
Proof. intros A P [a|] b H1 H2; auto. Qed.
Lemma merge_range : forall l c, layer_range l -> cfg_in_range c -> cfg_in_range (merge_over l c).
Proof.
  intros l c (L1 & L2 & L3 & L4 & L5 & L6) (C1 & C2 & C3 & C4 & C5 & C6 & C7 & C8 & C9).
  unfold cfg_in_range, merge_over; cbn.
  assert (ul_range (oset (l_ul l) (c_ul c))) by (apply oset_P; unfold ul_range; auto).
  assert (ol_range (oset (l_ol l) (c_ol c))) by (apply oset_P; unfold ol_range; auto).
  assert (cb_range (oset (l_cb l) (c_cb c))) by (apply oset_P; unfold cb_range; auto).
  assert (tb_range (oset (l_tb l) (c_tb c))) by (apply oset_P; unfold tb_range; auto).
  assert (pc_range (oset (l_punct l) (c_punct c))) by (apply oset_P; unfold pc_range; auto).
  assert (8 <= oset (l_line_width l) (c_line_width c)) by (apply (oset_P _ (fun n => 8 <= n)); auto).
  unfold ul_range, ol_range, cb_range, tb_range, pc_range in *. tauto.
Qed.

Lemma layer_file_range : forall fs p l, layer_from_file fs p = Rok l -> layer_range l.
Proof. intros fs p l H. unfold layer_from_file in H. destruct (fs p); try discriminate. eapply de_layer_range; eauto. Qed.
Lemma try_load_range : forall fs p o, try_load_layer fs p = Rok o -> opt_P layer_range o.
Proof.
  intros fs p o H. unfold try_load_layer in H. destruct (negb (exists_file fs p)); inv_do; cbn; auto.
  eapply layer_file_range; eauto.
Qed.
Lemma discover_project_range : forall fs d o, discover_project_config fs d = Rok o ->
  opt_P (fun pl => layer_range (snd pl)) o.
Proof.
  induction d as [|x d IH]; intros o H; cbn [discover_project_config] in H.
  - destruct (exists_file fs [config_file_name]); inv_do; cbn; auto. eapply layer_file_range; eauto.
  - destruct (exists_file fs (config_file_name :: x :: d)); inv_do; cbn; auto. eapply layer_file_range; eauto.
Qed.

Lemma fold_merge_range : forall ls c, Forall layer_range ls -> cfg_in_range c ->
  cfg_in_range (fold_left (fun c l => merge_over l c) ls c).
Proof. intros ls c H. revert c. induction H; intros c Hc; auto. cbn. apply IHForall. apply merge_range; auto. Qed.
Lemma opush_P : forall A (P : A -> Prop) ls o, Forall P ls -> opt_P P o -> Forall P (opush ls o).
Proof. intros A P ls [a|] H1 H2; cbn; auto. apply Forall_app. auto. Qed.

Lemma load_cascading_range : forall fs d cwd c mp, load_cascading fs d cwd = Rok (c, mp) -> cfg_in_range c.
Proof.
  intros fs d cwd c mp H. unfold load_cascading in H.
  apply rbind_ok in H; destruct H as [sys [E1 H]].
  apply rbind_ok in H; destruct H as [leg [E2 H]].
  apply rbind_ok in H; destruct H as [xdg [E3 H]].
  apply rbind_ok in H; destruct H as [proj [E4 H]].
  assert (R1 : opt_P layer_range sys) by (eapply try_load_range; eauto).
  assert (R2 : opt_P layer_range leg).
  { unfold load_user_legacy_config in E2. destruct (home_dir d); [eapply try_load_range; eauto|]. inversion E2; exact I. }
  assert (R3 : opt_P layer_range xdg).
  { unfold load_user_xdg_config in E3. destruct (config_dir d); [eapply try_load_range; eauto|]. inversion E3; exact I. }
  assert (F : Forall layer_range (opush (opush (opush [] sys) leg) xdg)) by (repeat apply opush_P; auto).
  destruct proj as [[p l]|].
  - apply discover_project_range in E4. cbn in E4. inversion H; subst. apply fold_merge_range; [|apply default_config_range].
    apply Forall_app. split; auto. destruct (l_no_inherit l); auto.
  - inversion H; subst. apply fold_merge_range; auto. apply default_config_range.
Qed.

Lemma load_config_range : forall fs d cwd e, cfg_in_range (fst (load_config fs d cwd e)).
Proof.
  intros. unfold load_config. destruct e as [p|].
  - destruct (config_from_file fs p) eqn:E; cbn; [|apply default_config_range].
    unfold config_from_file in E. destruct (fs p); try discriminate. eapply de_config_range; eauto.
  - destruct (load_cascading fs d cwd) as [[c mp]|] eqn:E; cbn; [|apply default_config_range].
    eapply load_cascading_range; eauto.
Qed.
Lemma build_options_range : forall c w o, cfg_in_range c -> build_options c w = Some o -> options_in_range o.
Proof.
  intros c w o (C1 & C2 & C3 & C4 & C5 & C6 & C7 & C8 & C9) H. unfold build_options in H.
  destruct w as [w|].
  - destruct (line_width_new w) eqn:E; [|discriminate]. apply line_width_ok in E. destruct E; subst.
    inversion H; subst. unfold options_in_range; cbn. tauto.
  - inversion H; subst. unfold options_in_range; cbn. tauto.
Qed.

Lemma jnew_P : forall A B (P : B -> Prop) (new : A -> result B) o d,
  P d -> (forall v w, new v = Rok w -> P w) -> P (jnew new o d).
Proof. intros A B P new [v|] d Hd Hn; cbn; auto. destruct (new v) eqn:E; eauto. Qed.
Lemma to_dash_ok : forall j, dash_setting_ok (to_dash_setting j).
Proof.
  intros [b|s]; cbn; auto. destruct (dash_pattern_new s) eqn:E; cbn; auto. apply dash_pattern_ok in E.
  destruct E as [E ->]. exact E.
Qed.
Lemma to_options_range : forall j, options_in_range (to_options j).
Proof.
  intro j. unfold options_in_range, to_options. cbn [line_width leading_spaces trailing_spaces indent_width
    ordered_list_indent_width min_fence_length thematic_break_leading_spaces en_dash em_dash].
  repeat apply conj.
  - apply (jnew_P _ _ (fun n => 8 <= n)); [cbn; lia|]. intros v w H. apply line_width_ok in H. lia.
  - apply (jnew_P _ _ (fun n => n <= 3)); [cbn; lia|]. intros v w H. apply leading_ok in H. lia.
  - apply (jnew_P _ _ (fun n => n <= 3)); [cbn; lia|]. intros v w H. apply trailing_ok in H. lia.
  - apply (jnew_P _ _ (fun n => 1 <= n)); [cbn; lia|]. intros v w H. apply indent_ok in H. lia.
  - apply (jnew_P _ _ (fun n => 1 <= n)); [cbn; lia|]. intros v w H. apply indent_ok in H. lia.
  - apply (jnew_P _ _ (fun n => 3 <= n)); [cbn; lia|]. intros v w H. apply min_fence_ok in H. lia.
  - apply (jnew_P _ _ (fun n => n <= 3)); [cbn; lia|]. intros v w H. apply leading_ok in H. lia.
  - destruct (j_en_dash j); cbn [jmap]; [apply to_dash_ok|exact I].
  - destruct (j_em_dash j); cbn [jmap]; [apply to_dash_ok|apply default_dash_ok].
Qed.

(** ** Discovery *)
Lemma discover_spec : forall fs cwd,
  (discover_project_config fs cwd = Rok None /\ (forall pre d, cwd = pre ++ d -> fs (config_file_name :: d) = FAbsent))
  \/ (exists pre d, cwd = pre ++ d
      /\ fs (config_file_name :: d) <> FAbsent
      /\ (forall pre' x rest, pre = pre' ++ x :: rest -> fs (config_file_name :: (x :: rest) ++ d) = FAbsent)
      /\ discover_project_config fs cwd =
           rbind (layer_from_file fs (config_file_name :: d)) (fun l => Rok (Some (config_file_name :: d, l)))).
Proof.
  intros fs. induction cwd as [|x cwd IH].
  - cbn [discover_project_config]. destruct (exists_file fs [config_file_name]) eqn:E.
    + right. exists [], []. repeat split; auto.
      * unfold exists_file in E. destruct (fs [config_file_name]); congruence.
      * intros pre' y rest H. destruct pre'; discriminate.
    + left. split; auto. intros pre d H. symmetry in H. apply app_eq_nil in H. destruct H; subst.
      unfold exists_file in E. destruct (fs [config_file_name]); congruence.
  - cbn [discover_project_config]. destruct (exists_file fs (config_file_name :: x :: cwd)) eqn:E.
    + right. exists [], (x :: cwd). repeat split; auto.
      * unfold exists_file in E. destruct (fs (config_file_name :: x :: cwd)); congruence.
      * intros pre' y rest H. destruct pre'; discriminate.
    + assert (A : fs (config_file_name :: x :: cwd) = FAbsent).
      { unfold exists_file in E. destruct (fs (config_file_name :: x :: cwd)); congruence. }
      destruct IH as [[I1 I2]|[pre [d [I1 [I2 [I3 I4]]]]]].
      * left. split; auto. intros pre d H. destruct pre as [|y pre].
        -- cbn in H. subst d. exact A.
        -- cbn in H. injection H as -> H. apply (I2 pre d H).
      * right. exists (x :: pre), d. repeat split; auto.
        -- cbn. congruence.
        -- intros pre' y rest H. destruct pre' as [|z pre'].
           ++ cbn in H. injection H as -> ->. cbn [app]. rewrite <- I1. exact A.
           ++ cbn in H. injection H as -> H. eapply I3; eauto.
Qed.

Lemma discover_config_spec : forall fs cwd,
  (discover fs cwd = Rok None /\ (forall pre d, cwd = pre ++ d -> fs (config_file_name :: d) = FAbsent))
  \/ (exists pre d, cwd = pre ++ d
      /\ fs (config_file_name :: d) <> FAbsent
      /\ (forall pre' x rest, pre = pre' ++ x :: rest -> fs (config_file_name :: (x :: rest) ++ d) = FAbsent)
      /\ discover fs cwd =
           rbind (config_from_file fs (config_file_name :: d)) (fun l => Rok (Some (config_file_name :: d, l)))).
Proof.
  intros fs. induction cwd as [|x cwd IH].
  - cbn [discover]. destruct (exists_file fs [config_file_name]) eqn:E.
    + right. exists [], []. repeat split; auto.
      * unfold exists_file in E. destruct (fs [config_file_name]); congruence.
      * intros pre' y rest H. destruct pre'; discriminate.
    + left. split; auto. intros pre d H. symmetry in H. apply app_eq_nil in H. destruct H; subst.
      unfold exists_file in E. destruct (fs [config_file_name]); congruence.
  - cbn [discover]. destruct (exists_file fs (config_file_name :: x :: cwd)) eqn:E.
    + right. exists [], (x :: cwd). repeat split; auto.
      * unfold exists_file in E. destruct (fs (config_file_name :: x :: cwd)); congruence.
      * intros pre' y rest H. destruct pre'; discriminate.
    + assert (A : fs (config_file_name :: x :: cwd) = FAbsent).
      { unfold exists_file in E. destruct (fs (config_file_name :: x :: cwd)); congruence. }
      destruct IH as [[I1 I2]|[pre [d [I1 [I2 [I3 I4]]]]]].
      * left. split; auto. intros pre d H. destruct pre as [|y pre].
        -- cbn in H. subst d. exact A.
        -- cbn in H. injection H as -> H. apply (I2 pre d H).
      * right. exists (x :: pre), d. repeat split; auto.
        -- cbn. congruence.
        -- intros pre' y rest H. destruct pre' as [|z pre'].
           ++ cbn in H. injection H as -> ->. cbn [app]. rewrite <- I1. exact A.
           ++ cbn in H. injection H as -> H. eapply I3; eauto.
Qed.

(** ** Cascade *)

(** The layers in order of priority, highest first. *)
Definition first_some {A} (l : list (option A)) (d : A) : A :=
  fold_right (fun o r => match o with Some a => a | None => r end) d l.

Lemma fold_merge_field : forall A (lf : ConfigLayer -> option A) (cf : Config -> A),
  (forall l c, cf (merge_over l c) = oset (lf l) (cf c)) ->
  forall ls c, cf (fold_left (fun c l => merge_over l c) ls c) = first_some (map lf (rev ls)) (cf c).
Proof.
  intros A lf cf H. induction ls as [|l ls IH]; intro c; cbn [fold_left rev map]; auto.
  rewrite IH, H. rewrite map_app. unfold first_some. rewrite fold_right_app. cbn. destruct (lf l); reflexivity.
Qed.
