(** * One example row more or less is one test more or less: C84 *)
From Verif Require Import PyStr PyStrFacts Types Regex Line DialectData Matcher Ast Parser Compiler Scan LineSpec LangSpec LangFacts DocSpec PartsSpec PropLine PropParse PropDoc PropDocString PickleSpec PickleFacts PickleTotal WfDoc PropMdParse PropCompile Glob Robot RobotSpec SuiteSpec RobotFacts PropRobot WriteSpec WriteRead PropWrite EssenceSpec EssenceFacts PropEssence PropAppend MiddleSpec Renumber Units PropMiddle ExampleSpec ExampleChange.
Import PickleSpec WriteSpec.

(** ** Lines *)
(** [m] is one line between [a] and [b] *)
Definition one_line_between (a m b : str) : Prop := ended a /\ line_count m = 1 /\ (ended (a ++ m) \/ b = []).
Lemma numbers_of l : nums (numbered_lines l) = seq 1 (length l).
Proof. unfold numbered_lines. generalize 1. induction l as [|x l IH]; intros k; [reflexivity|]. cbn [length seq combine map fst]. f_equal. apply IH. Qed.
Lemma numbers_nodup l : NoDup (nums (numbered_lines l)).
Proof. rewrite numbers_of. apply seq_NoDup. Qed.
Lemma one_numbered a m : ended a -> line_count m = 1 -> exists x, split_lines m = [x] /\ lines_after a m = [(S (line_count a), x)].
Proof.
  intros E O. unfold line_count in O. destruct (split_lines m) as [|x [|y l]] eqn:S; try discriminate O. exists x. split; [reflexivity|]. rewrite lines_after_eq by exact E. rewrite S. reflexivity.
Qed.
Lemma between_lines a m b : one_line_between a m b -> exists x, split_lines m = [x] /\
  numbered_lines (split_lines (a ++ m ++ b)) = numbered_lines (split_lines a) ++ (S (line_count a), x) :: map (ren_line (moved_down (line_count a) 1)) (lines_after a b).
Proof.
  intros [E [O F]]. destruct (one_numbered a m E O) as [x [S N]]. exists x. split; [exact S|]. destruct F as [F| ->].
  - rewrite app_assoc, lines_split by exact F. rewrite lines_split by exact E. rewrite N, <- app_assoc. cbn [app]. now rewrite lines_moved, O.
  - rewrite app_nil_r, lines_split, N by exact E. rewrite lines_after_eq by exact E. reflexivity.
Qed.
Lemma after_numbers a b : ended a -> Forall (fun l : nline => line_count a < fst l) (lines_after a b).
Proof.
  intros E. rewrite lines_after_eq by exact E. fold (line_count a). generalize (split_lines b). intros l. assert (G : forall k, line_count a < k -> Forall (fun l : nline => line_count a < fst l) (combine (seq k (length l)) l)); [|apply G; lia].
  induction l as [|x l IH]; intros k H; cbn [length seq combine]; constructor; [exact H | apply IH; lia].
Qed.
Lemma before_numbers a : Forall (fun l : nline => fst l <= line_count a) (numbered_lines (split_lines a)).
Proof.
  apply Forall_forall. intros l H. assert (K : In (fst l) (nums (numbered_lines (split_lines a)))) by now apply in_map. rewrite numbers_of in K. apply List.in_seq in K. unfold line_count. lia.
Qed.
Lemma up_down n k : n < k -> moved_up (S n) (moved_down n 1 k) = k.
Proof. intros H. unfold moved_up, moved_down. rewrite (proj2 (Nat.ltb_lt n k) H). destruct (S n <? k + 1) eqn:E; [lia|]. apply Nat.ltb_ge in E. lia. Qed.
(** without the line *)
Lemma removed_lines a m b : one_line_between a m b ->
  map (ren_line (moved_up (S (line_count a)))) (flat_map (less_line (S (line_count a))) (numbered_lines (split_lines (a ++ m ++ b)))) = numbered_lines (split_lines (a ++ b)).
Proof.
  intros H. destruct (between_lines a m b H) as [x [S N]]. destruct H as [E _]. rewrite N, (lines_split a b) by exact E. rewrite flat_map_app. cbn [flat_map]. rewrite !map_app. unfold less_line at 2. cbn [fst]. rewrite Nat.eqb_refl. cbn [app map].
  pose proof (before_numbers a) as B. pose proof (after_numbers a b E) as C. f_equal.
  - clear N. induction B as [|l ls Hl _ IH]; [reflexivity|]. cbn [flat_map]. rewrite less_other by lia. cbn [app map]. f_equal; [|exact IH]. destruct l as [k y]. unfold ren_line, moved_up. cbn [fst snd] in *. destruct (Datatypes.S (line_count a) <? k) eqn:K; [apply Nat.ltb_lt in K; lia | reflexivity].
  - clear N. induction C as [|l ls Hl _ IH]; [reflexivity|]. cbn [map flat_map]. rewrite less_other.
    + cbn [app map]. f_equal; [|exact IH]. destruct l as [k y]. unfold ren_line. cbn [fst snd] in *. now rewrite up_down.
    + destruct l as [k y]. cbn [ren_line fst snd] in *. unfold moved_down. rewrite (proj2 (Nat.ltb_lt _ _) Hl). lia.
Qed.
(** with the line *)
Lemma added_lines a m b x : one_line_between a m b -> split_lines m = [x] -> 0 < line_count a ->
  flat_map (more_line (line_count a) (S (line_count a), x)) (map (ren_line (moved_down (line_count a) 1)) (numbered_lines (split_lines (a ++ b)))) = numbered_lines (split_lines (a ++ m ++ b)).
Proof.
  intros H Sx P. destruct (between_lines a m b H) as [x' [S N]]. rewrite S in Sx. injection Sx as ->. destruct H as [E _]. rewrite N, (lines_split a b) by exact E. rewrite map_app, lines_still, flat_map_app.
  assert (Z : flat_map (more_line (line_count a) (Datatypes.S (line_count a), x)) (numbered_lines (split_lines a)) = numbered_lines (split_lines a) ++ [(Datatypes.S (line_count a), x)]).
  { unfold line_count in *. clear - P. set (new := (Datatypes.S (length (split_lines a)), x)). clearbody new. revert P. generalize (split_lines a). intros l. destruct l as [|y l] using rev_ind; [intros P; inversion P|]. intros _.
    unfold numbered_lines. rewrite app_length, Nat.add_comm. cbn [length Nat.add]. rewrite seq_S. rewrite combine_app by now rewrite seq_length. cbn [combine]. rewrite flat_map_app. cbn [flat_map]. unfold more_line at 2. cbn [fst]. rewrite Nat.eqb_refl. rewrite app_nil_r, <- app_assoc. cbn [app]. f_equal.
    apply (chg_still (Datatypes.S (length l)) (more_line (Datatypes.S (length l)) new)); [apply more_other|]. intros K. change (In (Datatypes.S (length l)) (nums (numbered_lines l))) in K. rewrite numbers_of in K. apply List.in_seq in K. lia. }
  rewrite Z, <- app_assoc. cbn [app]. f_equal. f_equal. apply chg_still with (n := line_count a); [apply more_other|].
  intros K. rewrite map_map in K. apply in_map_iff in K as [l [K Hl]]. pose proof (after_numbers a b E) as C. rewrite Forall_forall in C. specialize (C l Hl). cbn [ren_line fst] in K. unfold moved_down in K. rewrite (proj2 (Nat.ltb_lt _ _) C) in K. lia.
Qed.

(** ** C84: the document *)
Lemma some_no_ids (Q : examples -> Prop) d : (forall e, Q e -> Q (no_id_examples e)) -> some_examples Q d -> some_examples Q (no_ids d).
Proof.
  intros H. unfold some_examples. destruct d as [[f|] cs]; cbn [no_ids gd_feature option_map]; [|auto].
  assert (A : forall x, sc_some Q x -> sc_some Q (no_id_scenario x)).
  { intros x K. unfold sc_some in *. cbn [no_id_scenario sc_examples]. induction K; [left; auto | right; auto]. }
  assert (B : forall x, ru_some Q x -> ru_some Q (no_id_rule x)).
  { intros x K. unfold ru_some in *. cbn [no_id_rule ru_scenarios]. induction K; [left; auto | right; auto]. }
  intros [K|K]; [left | right]; cbn [no_id_feature fe_scenarios fe_rules]; induction K; cbn [map]; solve [left; auto | right; auto].
Qed.
Lemma some_ren (Q Q' : examples -> Prop) g d : (forall e, Q e -> Q' (ren_examples g e)) -> some_examples Q d -> some_examples Q' (ren_gdoc g d).
Proof.
  intros H. unfold some_examples. destruct d as [[f|] cs]; cbn [ren_gdoc gd_feature option_map]; [|auto].
  assert (A : forall x, sc_some Q x -> sc_some Q' (ren_scenario g x)).
  { intros x K. unfold sc_some in *. cbn [ren_scenario sc_examples]. induction K; [left; auto | right; auto]. }
  assert (B : forall x, ru_some Q x -> ru_some Q' (ren_rule g x)).
  { intros x K. unfold ru_some in *. cbn [ren_rule ru_scenarios]. induction K; [left; auto | right; auto]. }
  intros [K|K]; [left | right]; cbn [ren_feature fe_scenarios fe_rules]; induction K; cbn [map]; solve [left; auto | right; auto].
Qed.
Lemma exists_map {A B} (f : A -> B) (P : B -> Prop) l : Exists P (map f l) <-> Exists (fun x => P (f x)) l.
Proof. induction l as [|x l [IH1 IH2]]; cbn [map]; split; intros K; inversion K; subst; auto. Qed.
Lemma body_no_ids n e : body_row n e -> body_row n (no_id_examples e).
Proof. unfold body_row. cbn [no_id_examples ex_body]. intros K. apply exists_map. exact K. Qed.
(** C84.  A line of a text is a row of examples, not the header.  Then the text without that line is the document without that row. *)
Theorem C84_removed_document : forall stop lang a m b d, supported lang -> one_line_between a m b ->
  parse_with stop false lang (a ++ m ++ b) = Ok d -> example_row (S (line_count a)) d ->
  exists d', parse_with stop false lang (a ++ b) = Ok d' /\ no_ids d' = row_removed (S (line_count a)) (no_ids d).
Proof.
  intros stop lang a m b d S H P K. assert (A : stands_for lang (numbered_lines (split_lines (a ++ m ++ b))) (no_ids d)) by (apply (C04_parse_iff stop lang _ _ S); eauto).
  apply (some_no_ids _ d (body_no_ids (Datatypes.S (line_count a)))) in K.
  apply (stands_change _ _ (less_other (Datatypes.S (line_count a))) _ _ (examples_less (Datatypes.S (line_count a)))) in A; [|apply numbers_nodup | exact K].
  apply (n_stands (moved_up (Datatypes.S (line_count a)))) in A. rewrite (removed_lines a m b H) in A. apply (C04_parse_iff stop lang _ _ S) in A as [d' [P' E]]. eauto.
Qed.
Print Assumptions C84_removed_document.
(** C84.  The last line of [a] is the header or a row of examples, and [m] is a row with as many cells.  Then the text with [m] after [a] is the
    document with that row. *)
Theorem C84_added_document : forall stop lang a m b d x items, supported lang -> one_line_between a m b -> split_lines m = [x] -> row_line x items ->
  parse_with stop false lang (a ++ b) = Ok d -> some_examples (table_row (line_count a) (length items)) d ->
  let at_ col := mkLoc (S (line_count a)) (Some col) in
  exists d', parse_with stop false lang (a ++ m ++ b) = Ok d' /\
    no_ids d' = row_added (line_count a) (mkRow 0 (at_ (indent_of x + 1)) (map (fun i => mkCell (at_ (i_column i)) (i_text i)) items)) (no_ids d).
Proof.
  intros stop lang a m b d x items S H Sx R P K at_. assert (A : stands_for lang (numbered_lines (split_lines (a ++ b))) (no_ids d)) by (apply (C04_parse_iff stop lang _ _ S); eauto).
  set (r := mkRow 0 (at_ (indent_of x + 1)) (map (fun i => mkCell (at_ (i_column i)) (i_text i)) items)). set (n := line_count a) in *.
  assert (Rr : row_at_line (Datatypes.S n, x) r) by (exists items; split; [exact R | reflexivity]).
  assert (P0 : 0 < n). { destruct H as [[t ->] _]. unfold n, line_count. destruct (split_lines (t ++ [ch_nl])) eqn:E; [|cbn; lia]. exfalso. pose proof (split_lines_ended t []) as Q. destruct t as [|c t]; cbn in E; [discriminate E|]. destruct (c =? ch_nl)%N; [discriminate E|]. destruct (split_lines (t ++ [ch_nl])); discriminate E. }
  apply (n_stands (moved_down n 1)) in A.
  assert (K2 : some_examples (table_row n (length (row_cells r))) (ren_gdoc (moved_down n 1) (no_ids d))).
  { apply (some_ren (table_row n (length items))).
    - intros e [h [E1 [E2 E3]]]. exists (ren_row (moved_down n 1) h). cbn [ren_examples ex_header ex_body]. rewrite E1. split; [reflexivity|]. cbn [ren_row row_cells r]. rewrite !map_length. split; [exact E2|].
      change (Exists (on_line n) (map (ren_row (moved_down n 1)) (h :: ex_body e))). apply exists_map. eapply Exists_impl; [|exact E3]. intros q Hq. unfold on_line in *. cbn [ren_row row_loc ren_loc l_line]. rewrite Hq. unfold moved_down. now rewrite Nat.ltb_irrefl.
    - apply some_no_ids; [|exact K]. intros e [h [E1 [E2 E3]]]. exists (no_id_row h). cbn [no_id_examples ex_header ex_body]. rewrite E1. split; [reflexivity|]. split; [exact E2|].
      change (Exists (on_line n) (map no_id_row (h :: ex_body e))). apply exists_map. exact E3. }
  apply (stands_change _ _ (more_other n (Datatypes.S n, x)) _ _ (fun d => examples_more n (Datatypes.S n, x) r Rr d)) in A; [| |exact K2].
  - unfold n in A. rewrite (added_lines a m b x H Sx P0) in A. apply (C04_parse_iff stop lang _ _ S) in A as [d' [P' E]]. exists d'. split; [exact P' | exact E].
  - rewrite map_map. change (NoDup (map (fun l : nline => moved_down n 1 (fst l)) (numbered_lines (split_lines (a ++ b))))). rewrite <- map_map, numbers_of. apply FinFun.Injective_map_NoDup; [|apply seq_NoDup].
    intros i j. unfold moved_down. destruct (n <? i) eqn:Ei, (n <? j) eqn:Ej; try apply Nat.ltb_lt in Ei; try apply Nat.ltb_lt in Ej; try apply Nat.ltb_ge in Ei; try apply Nat.ltb_ge in Ej; lia.
Qed.
Print Assumptions C84_added_document.

(** ** The pickles, one for each origin *)
Definition rule_tags (ru : option rule_ast) : list tag := match ru with Some ru => ru_tags ru | None => [] end.
Definition rule_bg (ru : option rule_ast) : list step := match ru with Some ru => bg_steps_of (ru_background ru) | None => [] end.
Definition ocompile (f : feature) (lang : str) (o : origin) (i : nat) : result (list pickle * nat) :=
  let tags := fe_tags f ++ rule_tags (o_rule o) in let bg := bg_steps_of (fe_background f) ++ rule_bg (o_rule o) in
  match o_row o with
  | None => compile_scenario tags bg (o_scenario o) lang i
  | Some (ex, h, r) => rbind (compile_row tags bg (o_scenario o) ex (row_cells h) lang r i) (fun q => Ok ([fst q], snd q))
  end.
Lemma one_origins f lang ru sc i : compile_one (fe_tags f ++ rule_tags ru) (bg_steps_of (fe_background f) ++ rule_bg ru) lang sc i = compile_seq (ocompile f lang) (scenario_origins ru sc) i.
Proof.
  unfold compile_one, scenario_origins. destruct (sc_examples sc) as [|e es] eqn:E.
  - cbn [compile_seq]. unfold ocompile at 1. cbn [o_row o_rule o_scenario]. destruct (compile_scenario _ _ sc lang i) as [[ps k]|]; [|reflexivity]. cbn [rbind fst snd]. now rewrite app_nil_r.
  - unfold compile_outline. rewrite E. generalize (e :: es). intros l. rewrite seq_flat. apply seq_ext. intros ex j _. unfold compile_examples, examples_origins. destruct (ex_header ex) as [h|]; [|reflexivity]. rewrite seq_map. reflexivity.
Qed.
Lemma compile_origins d f lang i : gd_feature d = Some f -> fe_language f = Some lang -> compile d i = compile_seq (ocompile f lang) (feature_origins f) i.
Proof.
  intros E L. rewrite (compile_some d f lang i E L). unfold feature_origins. rewrite seq_app_. apply then_cong.
  - rewrite seq_flat. apply seq_ext. intros sc j _. rewrite <- one_origins. cbn [rule_tags rule_bg]. now rewrite !app_nil_r.
  - intros j. rewrite seq_flat. apply seq_ext. intros ru k _. unfold compile_rule. rewrite seq_flat. apply seq_ext. intros sc j' _. apply (one_origins f lang (Some ru)).
Qed.
Definition bare (x : scenario) : scenario := mkScenario (sc_id x) (sc_tags x) (sc_loc x) (sc_keyword x) (sc_name x) (sc_desc x) (sc_steps x) [].
Lemma ocompile_ids f lang o i j : same_pickles (ocompile f lang o i) (ocompile f lang o j).
Proof.
  unfold ocompile. destruct (o_row o) as [[[ex h] r]|]; [apply (row_same _ _ _ _ lang eq_refl eq_refl (bare (o_scenario o)) (bare (o_scenario o))); reflexivity | now apply scenario_same].
Qed.
Lemma ocompiles_ids f lang os i j : same_pickles (compile_seq (ocompile f lang) os i) (compile_seq (ocompile f lang) os j).
Proof. apply seq_same. induction os; constructor; [|assumption]. intros; apply ocompile_ids. Qed.
Lemma ocompile_one f lang o i q : ocompile f lang o i = Ok q -> exists p, fst q = [p].
Proof.
  unfold ocompile. destruct (o_row o) as [[[ex h] r]|].
  - intros H. apply rbind_ok in H as [q' [_ H]]. injection H as <-. exists (fst q'). reflexivity.
  - intros H. unfold compile_scenario in H. apply rbind_ok in H as [[[st k] n] [_ H]]. apply rbind_ok in H as [nm [_ H]]. injection H as <-. eexists. reflexivity.
Qed.
Lemma ocompile_length f lang os : forall i q, compile_seq (ocompile f lang) os i = Ok q -> length (fst q) = length os.
Proof.
  induction os as [|o os IH]; intros i q H; [injection H as <-; reflexivity|]. change (then_ (ocompile f lang o i) (compile_seq (ocompile f lang) os) = Ok q) in H. apply then_ok in H as [q1 [q2 [H1 [H2 ->]]]].
  destruct (ocompile_one _ _ _ _ _ H1) as [p ->]. cbn [app length]. f_equal. eapply IH; eauto.
Qed.

(** ** The origins without the row *)
Section Origins.
Variable n : nat.
Notation less := (less_examples n).
Definition less_origin (o : origin) : origin :=
  mkOrigin (option_map (on_rule less) (o_rule o)) (on_scenario less (o_scenario o)) (match o_row o with Some (e, h, r) => Some (less e, h, r) | None => None end).
Definition keep (o : origin) : bool := match o_row o with Some (_, _, r) => off_line n r | None => true end.
Lemma filter_flat {A B} (p : B -> bool) (g : A -> list B) l : filter p (flat_map g l) = flat_map (fun x => filter p (g x)) l.
Proof. induction l as [|x l IH]; [reflexivity|]. cbn [flat_map]. now rewrite filter_app, IH. Qed.
Lemma map_flat {A B C} (k : B -> C) (g : A -> list B) l : map k (flat_map g l) = flat_map (fun x => map k (g x)) l.
Proof. induction l as [|x l IH]; [reflexivity|]. cbn [flat_map]. now rewrite map_app, IH. Qed.
Lemma flat_map_map {A B C} (k : A -> B) (g : B -> list C) l : flat_map g (map k l) = flat_map (fun x => g (k x)) l.
Proof. induction l as [|x l IH]; [reflexivity|]. cbn [flat_map map]. now rewrite IH. Qed.
Lemma filter_map {A B} (p : B -> bool) (g : A -> B) l : filter p (map g l) = map g (filter (fun x => p (g x)) l).
Proof. induction l as [|x l IH]; [reflexivity|]. cbn [map filter]. destruct (p (g x)); cbn [map]; now rewrite IH. Qed.
Lemma less_ex_o ru sc e : examples_origins (option_map (on_rule less) ru) (on_scenario less sc) (less e) = map less_origin (filter keep (examples_origins ru sc e)).
Proof. unfold examples_origins. cbn [less_examples ex_header ex_body]. destruct (ex_header e) as [h|]; [|reflexivity]. rewrite filter_map, map_map. cbn [keep o_row]. reflexivity. Qed.
Lemma less_sc_o ru sc : scenario_origins (option_map (on_rule less) ru) (on_scenario less sc) = map less_origin (filter keep (scenario_origins ru sc)).
Proof.
  unfold scenario_origins. cbn [on_scenario sc_examples]. destruct (sc_examples sc) as [|e es] eqn:E; [reflexivity|]. cbn [map]. change (less e :: map less es) with (map less (e :: es)).
  generalize (e :: es). intros l. rewrite flat_map_map, filter_flat, map_flat. apply flat_map_ext. intros x. apply less_ex_o.
Qed.
Lemma less_origins f : feature_origins (on_feature less f) = map less_origin (filter keep (feature_origins f)).
Proof.
  unfold feature_origins. cbn [on_feature fe_scenarios fe_rules]. rewrite filter_app, map_app, !flat_map_map, !filter_flat, !map_flat. f_equal; apply flat_map_ext.
  - intros sc. apply (less_sc_o None).
  - intros ru. rewrite filter_flat, map_flat. cbn [on_rule ru_scenarios]. rewrite flat_map_map. apply flat_map_ext. intros sc. apply (less_sc_o (Some ru)).
Qed.
Lemma less_view f o : pview (on_feature less f) (less_origin o) = pview f o.
Proof. unfold pview, o_view, lower_tags, origin_steps, inherited_steps, columns. cbn [on_feature less_origin on_scenario o_rule o_scenario o_row fe_background sc_tags sc_steps sc_desc sc_loc]. destruct (o_rule o), (o_row o) as [[[ee hh] rr]|]; reflexivity. Qed.
Lemma less_compile f lang os i : compile_seq (ocompile (on_feature less f) lang) (map less_origin os) i = compile_seq (ocompile f lang) os i.
Proof.
  rewrite seq_map. apply seq_ext. intros o j _. unfold ocompile. cbn [on_feature less_origin on_scenario o_rule o_scenario o_row fe_background fe_tags]. destruct (o_rule o) as [ru|], (o_row o) as [[[e h] r]|]; reflexivity.
Qed.
(** the order of leaving out ids and rows *)
Lemma less_ids f : on_feature less (no_id_feature f) = no_id_feature (on_feature less f).
Proof.
  assert (X : forall e, less (no_id_examples e) = no_id_examples (less e)) by (intros e; unfold less_examples, no_id_examples; cbn [ex_id ex_tags ex_loc ex_keyword ex_name ex_desc ex_header ex_body]; f_equal; exact (filter_map (off_line n) no_id_row (ex_body e))).
  assert (Y : forall x, on_scenario less (no_id_scenario x) = no_id_scenario (on_scenario less x)) by (intros x; unfold on_scenario, no_id_scenario; cbn; f_equal; rewrite !map_map; apply map_ext, X).
  unfold on_feature, no_id_feature. cbn. f_equal; rewrite !map_map; apply map_ext; [exact Y|]. intros ru. unfold on_rule, no_id_rule. cbn. f_equal. rewrite !map_map. apply map_ext, Y.
Qed.
End Origins.
Definition views (f : feature) := map (pview f) (feature_origins f).
Lemma views_ids f : views (no_id_feature f) = views f.
Proof. unfold views. now rewrite !pviews, b_units, b_views. Qed.
Lemma views_ren g f : views (ren_feature g f) = map (ren_view g) (views f).
Proof. unfold views. now rewrite !pviews, g_units, g_views. Qed.
Lemma views_less n f : views (on_feature (less_examples n) f) = map (pview f) (filter (keep n) (feature_origins f)).
Proof. unfold views. rewrite less_origins, map_map. apply map_ext. apply less_view. Qed.
Lemma essence_ren g d : essence (ren_gdoc g d) = essence d.
Proof.
  unfold essence. destruct d as [[f|] cs]; cbn [ren_gdoc gd_feature option_map]; [|reflexivity]. f_equal. unfold feature_essence. cbn [ren_feature fe_tags fe_language fe_background fe_scenarios fe_rules].
  assert (Bg : forall b, option_map background_essence (option_map (ren_background g) b) = option_map background_essence b) by (intros [b|]; [cbn; unfold background_essence; cbn; now rewrite g_steps_e | reflexivity]).
  assert (Sc : forall l, map scenario_essence (map (ren_scenario g) l) = map scenario_essence l) by (intros l; rewrite map_map; apply map_ext; apply g_scenario_e).
  rewrite g_names, Bg, Sc, map_map. f_equal. apply map_ext. intros ru. unfold rule_essence. cbn [ren_rule ru_tags ru_background ru_scenarios]. now rewrite g_names, Bg, Sc.
Qed.

(** ** One row on a line *)
Definition e_lines (e : examples) : list nat := match ex_header e with Some _ => map (fun r => l_line (row_loc r)) (ex_body e) | None => [] end.
Definition sc_lines (x : scenario) : list nat := flat_map e_lines (sc_examples x).
Definition ru_lines (x : rule_ast) : list nat := flat_map sc_lines (ru_scenarios x).
Definition fe_lines (x : feature) : list nat := flat_map sc_lines (fe_scenarios x) ++ flat_map ru_lines (fe_rules x).
Section Count.
Variable n : nat.
Notation count := (count_occ Nat.eq_dec).
Definition counted {A} (B : list nline -> A -> list comment -> Prop) (Q : A -> Prop) (lines : A -> list nat) : Prop := forall ls x cs, B ls x cs ->
  count (lines x) n <= count (nums ls) n /\ (Q x -> In n (lines x)).
Lemma count_blocks {A} (B : list nline -> A -> list comment -> Prop) Q lines : counted B Q lines -> counted (blocks B) (Exists Q) (flat_map lines).
Proof.
  intros C ls xs cs H. induction H as [|l1 x c1 l2 xs c2 H _ [I1 I2]]; [split; [reflexivity | intros K; inversion K]|]. destruct (C _ _ _ H) as [C1 C2]. cbn [flat_map]. rewrite nums_app, !count_occ_app. split; [lia|].
  intros K. apply in_or_app. inversion K; subst; auto.
Qed.
Lemma count_mid (a b c : list nline) : count (nums b) n <= count (nums (a ++ b ++ c)) n.
Proof. rewrite !nums_app, !count_occ_app. lia. Qed.
Lemma count_rows ls rows cs : row_lines ls rows cs -> count (map (fun r => l_line (row_loc r)) rows) n <= count (nums ls) n.
Proof.
  induction 1 as [|l ls r rs cs H _ IH|l ls rs cs H _ IH|l ls rs cs H _ IH]; [reflexivity| | |]; cbn [map].
  - rewrite (row_line_no _ _ H). cbn [count_occ]. destruct (Nat.eq_dec (fst l) n); lia.
  - cbn [count_occ]. destruct (Nat.eq_dec (fst l) n); lia.
  - cbn [count_occ]. destruct (Nat.eq_dec (fst l) n); lia.
Qed.
Variable d : dialect.
Lemma count_examples : counted (examples_block d) (body_row n) e_lines.
Proof.
  intros ls x cs [tl [l [dl [rl [tags [kw [name [desc [rows [c0 [c1 [c2 [-> [H0 [H1 [H2 [H3 [-> ->]]]]]]]]]]]]]]]]]].
  assert (S : tl ++ l :: dl ++ rl = (tl ++ l :: dl) ++ rl ++ []) by (rewrite app_nil_r, <- app_assoc; reflexivity). rewrite S.
  destruct rows as [rows|]; cbn [maybe] in H3; [|split; [cbn; lia | intros K; inversion K]].
  destruct H3 as [[l0 [ls' [r0 [rs [-> [R1 [R2 ->]]]]]]] Re]. unfold e_lines. cbn [ex_header ex_body]. split.
  - etransitivity; [|apply count_mid]. etransitivity; [exact (count_rows _ _ _ R2)|]. cbn [map count_occ]. destruct (Nat.eq_dec (fst l0) n); lia.
  - intros K. unfold body_row in K. cbn [ex_body] in K. apply Exists_exists in K as [r [Hr Er]]. apply in_map_iff. eauto.
Qed.
Lemma count_scenario : counted (scenario_block d) (sc_some (body_row n)) sc_lines.
Proof.
  intros ls x cs [tl [l [dl [sl [el [tags [kw [name [desc [steps [exs [c0 [c1 [c2 [c3 [-> [H0 [H1 [H2 [H3 [H4 [-> ->]]]]]]]]]]]]]]]]]]]]]].
  assert (S : tl ++ l :: dl ++ sl ++ el = (tl ++ l :: dl ++ sl) ++ el ++ []) by (rewrite app_nil_r; repeat (rewrite <- app_assoc; cbn [app]); reflexivity). rewrite S.
  destruct (count_blocks _ _ _ count_examples _ _ _ H4) as [E1 E2]. split; [etransitivity; [exact E1 | apply count_mid] | exact E2].
Qed.
Lemma count_rule : counted (rule_block d) (ru_some (body_row n)) ru_lines.
Proof.
  intros ls x cs [tl [l [dl [bl [sl [tags [kw [name [desc [bg [scs [c0 [c1 [c2 [c3 [-> [H0 [H1 [H2 [H3 [H4 [-> ->]]]]]]]]]]]]]]]]]]]]]].
  assert (S : tl ++ l :: dl ++ bl ++ sl = (tl ++ l :: dl ++ bl) ++ sl ++ []) by (rewrite app_nil_r; repeat (rewrite <- app_assoc; cbn [app]); reflexivity). rewrite S.
  destruct (count_blocks _ _ _ count_scenario _ _ _ H4) as [E1 E2]. split; [etransitivity; [exact E1 | apply count_mid] | exact E2].
Qed.
Lemma count_feature lang : counted (feature_block d lang) (fe_some (body_row n)) fe_lines.
Proof.
  intros ls x cs [tl [l [dl [bl [sl [ul [tags [kw [name [desc [bg [scs [rus [c0 [c1 [c2 [c3 [c4 [-> [H0 [H1 [H2 [H3 [H4 [H5 [-> ->]]]]]]]]]]]]]]]]]]]]]]]]]].
  assert (S : tl ++ l :: dl ++ bl ++ sl ++ ul = (tl ++ l :: dl ++ bl) ++ (sl ++ ul) ++ []) by (rewrite app_nil_r; repeat (rewrite <- app_assoc; cbn [app]); reflexivity). rewrite S.
  destruct (count_blocks _ _ _ count_scenario _ _ _ H4) as [E1 E2]. destruct (count_blocks _ _ _ count_rule _ _ _ H5) as [F1 F2]. unfold fe_lines. cbn [fe_scenarios fe_rules]. split.
  - etransitivity; [|apply count_mid]. rewrite nums_app, !count_occ_app. lia.
  - intros [K|K]; apply in_or_app; [left; apply E2, K | right; apply F2, K].
Qed.
End Count.
Lemma count_stands n lang ls doc : stands_for lang ls doc -> NoDup (nums ls) -> example_row n doc -> exists f, gd_feature doc = Some f /\ count_occ Nat.eq_dec (fe_lines f) n <= 1 /\ In n (fe_lines f).
Proof.
  intros H N K. assert (G : exists f pre fl post d l cs, ls = pre ++ fl ++ post /\ gd_feature doc = Some f /\ feature_block d l fl f cs).
  { destruct H as [[cs [H ->]]|[[pre [fl [d [f [c0 [c1 [-> [H1 [H2 [H3 ->]]]]]]]]]]|[pre [hd [mid [fl [name [d [f [c0 [c1 [c2 [-> [H1 [H2 [H3 [H4 [H5 ->]]]]]]]]]]]]]]]]]]; [destruct K| |].
    - exists f, pre, fl, [], d, lang, c1. rewrite app_nil_r. auto.
    - exists f, (pre ++ hd :: mid), fl, [], d, name, c2. rewrite app_nil_r, <- app_assoc. auto. }
  destruct G as [f [pre [fl [post [d [l [cs [-> [F B]]]]]]]]]. exists f. split; [exact F|]. destruct (count_feature n d l _ _ _ B) as [C1 C2]. unfold example_row, some_examples in K. rewrite F in K. split; [|exact (C2 K)].
  etransitivity; [exact C1|]. etransitivity; [apply (count_mid n pre fl post)|]. apply (proj1 (NoDup_count_occ Nat.eq_dec _) N).
Qed.
Definition o_lines (o : origin) : list nat := match o_row o with Some (_, _, r) => [l_line (row_loc r)] | None => [] end.
Lemma lines_sc ru sc : flat_map o_lines (scenario_origins ru sc) = sc_lines sc.
Proof.
  unfold scenario_origins, sc_lines. destruct (sc_examples sc) as [|e es]; [reflexivity|]. generalize (e :: es). intros l. induction l as [|x l IH]; [reflexivity|]. cbn [flat_map]. rewrite flat_map_app, IH. f_equal.
  unfold examples_origins, e_lines. destruct (ex_header x) as [hx|]; [|reflexivity]. rewrite flat_map_map. cbn [o_lines o_row]. induction (ex_body x) as [|rr bb IHb]; [reflexivity|]. cbn [flat_map map app]. now rewrite IHb.
Qed.
Lemma flat_flat {A B C} (k : B -> list C) (g : A -> list B) l : flat_map k (flat_map g l) = flat_map (fun x => flat_map k (g x)) l.
Proof. induction l as [|x l IH]; [reflexivity|]. cbn [flat_map]. now rewrite flat_map_app, IH. Qed.
Lemma lines_fe f : flat_map o_lines (feature_origins f) = fe_lines f.
Proof.
  unfold feature_origins, fe_lines. rewrite flat_map_app, !flat_flat. f_equal; apply flat_map_ext; [intros sc; apply lines_sc|]. intros ru. rewrite flat_flat. apply flat_map_ext. intros sc. apply lines_sc.
Qed.
Lemma lines_ids f : fe_lines (no_id_feature f) = fe_lines f.
Proof.
  assert (E : forall e, e_lines (no_id_examples e) = e_lines e) by (intros e; unfold e_lines; cbn [no_id_examples ex_header ex_body]; destruct (ex_header e); [cbn; now rewrite map_map | reflexivity]).
  assert (S : forall x, sc_lines (no_id_scenario x) = sc_lines x) by (intros x; unfold sc_lines; cbn [no_id_scenario sc_examples]; rewrite flat_map_map; apply flat_map_ext, E).
  unfold fe_lines. cbn [no_id_feature fe_scenarios fe_rules]. rewrite !flat_map_map. f_equal; apply flat_map_ext; [exact S|]. intros ru. unfold ru_lines. cbn [no_id_rule ru_scenarios]. rewrite flat_map_map. apply flat_map_ext, S.
Qed.
Lemma keep_all n os : ~ In n (flat_map o_lines os) -> filter (keep n) os = os.
Proof.
  induction os as [|o os IH]; intros H; [reflexivity|]. cbn [flat_map] in H. cbn [filter]. assert (K : keep n o = true).
  { unfold keep, o_lines in *. destruct (o_row o) as [[[e h] r]|]; [|reflexivity]. unfold off_line. destruct (l_line (row_loc r) =? n) eqn:E; [|reflexivity]. apply Nat.eqb_eq in E. exfalso. apply H. left. exact E. }
  rewrite K, IH; [reflexivity|]. intros J. apply H. apply in_or_app. now right.
Qed.
(** the origin whose row is on line [n] *)
Definition of_line (n : nat) (o : origin) : Prop := match o_row o with Some (_, _, r) => on_line n r | None => False end.
Lemma only_origin n os : count_occ Nat.eq_dec (flat_map o_lines os) n <= 1 -> In n (flat_map o_lines os) -> exists o1 o o2, os = o1 ++ o :: o2 /\ of_line n o /\ filter (keep n) os = o1 ++ o2.
Proof.
  induction os as [|o os IH]; intros C I; [destruct I|]. cbn [flat_map] in C, I. rewrite count_occ_app in C. destruct (in_dec Nat.eq_dec n (flat_map o_lines os)) as [J|J].
  - pose proof (proj1 (count_occ_In Nat.eq_dec _ n) J) as P. destruct (IH ltac:(lia) J) as [o1 [o' [o2 [-> [H1 H2]]]]]. exists (o :: o1), o', o2. split; [reflexivity|]. split; [exact H1|]. cbn [filter app].
    assert (K : keep n o = true). { unfold keep, o_lines in *. destruct (o_row o) as [[[e h] r]|]; [|reflexivity]. unfold off_line. destruct (l_line (row_loc r) =? n) eqn:E; [|reflexivity]. apply Nat.eqb_eq in E. cbn [count_occ] in C. destruct (Nat.eq_dec (l_line (row_loc r)) n); [lia | contradiction]. }
    rewrite K. f_equal. exact H2.
  - apply in_app_or in I as [I|I]; [|contradiction]. exists [], o, os. split; [reflexivity|]. unfold of_line, on_line; unfold o_lines in I. destruct (o_row o) as [[[e h] r]|] eqn:Eo; [|destruct I]. destruct I as [I|[]]. split; [exact I|]. cbn [filter app]. unfold keep at 1. rewrite Eo. unfold off_line. rewrite (proj2 (Nat.eqb_eq _ _) I). cbn [negb]. now apply keep_all.
Qed.

(** ** The suites *)
Lemma cert_app pr f os1 ps1 ts1 os2 ps2 ts2 : cert pr f os1 ps1 ts1 -> cert pr f os2 ps2 ts2 -> cert pr f (os1 ++ os2) (ps1 ++ ps2) (ts1 ++ ts2).
Proof.
  intros [F X] [F' X']. split; [|now apply Forall2_app]. clear X X'. induction F; [exact F'|]. cbn [app]. constructor; assumption.
Qed.
(** the suite [x] is [x'] without the test of the example row on line [n], and with the lines below that line moved up;
    [f] is the feature [x'] is made of *)
Definition test_removed (n : nat) (f : feature) (x' x : rsuite) : Prop :=
  exists o1 o o2 t1 t t2, feature_origins f = o1 ++ o :: o2 /\ of_line n o /\ rs_tests x' = t1 ++ t :: t2 /\ length t1 = length o1 /\ length t2 = length o2 /\
    rs_tests x = map (ren_test (moved_up n)) (t1 ++ t2) /\ same_settings x' x.
Section Removed.
Context (pr : char -> bool) (name : str) (dir : option (list (str * entry))) (a m b : str) (d' : gdoc) (f' : feature)
  (M : is_markdown name = false) (O : one_line_between a m b) (R : read_file name (a ++ m ++ b) = Ok d') (F : gd_feature d' = Some f') (X : example_row (S (line_count a)) d').
Let n := S (line_count a).
Lemma less_ : exists d f lang, read_file name (a ++ b) = Ok d /\ gd_feature d = Some f /\ no_id_feature f = ren_feature (moved_up n) (on_feature (less_examples n) (no_id_feature f')) /\ fe_language f' = Some lang /\
  same_pickles (compile d 0) (compile_seq (ocompile f' lang) (filter (keep n) (feature_origins f')) 0).
Proof.
  assert (P' : parse_with false false (s "en") (a ++ m ++ b) = Ok d') by (unfold read_file in R; now rewrite M in R).
  destruct (C84_removed_document false (s "en") a m b d' en_supported O P' X) as [d [P Q]]. fold n in Q. destruct (gd_feature d) as [f|] eqn:Fd; [|unfold no_ids, row_removed in Q; rewrite Fd, F in Q; discriminate Q].
  assert (Qf : no_id_feature f = ren_feature (moved_up n) (on_feature (less_examples n) (no_id_feature f'))) by (pose proof (f_equal gd_feature Q) as Q2; unfold no_ids, row_removed, ren_gdoc, on_examples in Q2; cbn [gd_feature] in Q2; rewrite Fd, F in Q2; cbn [option_map] in Q2; congruence).
  destruct (C54_returned false (s "en") _ d' f' en_supported P' F) as [lang [dl [L _]]]. exists d, f, lang. split; [unfold read_file; now rewrite M|]. split; [exact Fd|]. split; [exact Qf|]. split; [exact L|].
  assert (Ee : essence d = essence (mkGdoc (Some (on_feature (less_examples n) f')) [])).
  { rewrite <- (essence_no_ids d), Q. unfold row_removed. rewrite essence_ren. unfold on_examples, no_ids. rewrite F. cbn [gd_feature gd_comments option_map]. rewrite less_ids.
    exact (essence_no_ids (mkGdoc (Some (on_feature (less_examples n) f')) [])). }
  pose proof (C61_pickles d _ 0 0 Ee) as C. rewrite (compile_origins (mkGdoc (Some (on_feature (less_examples n) f')) []) (on_feature (less_examples n) f') lang 0 eq_refl L), less_origins, less_compile in C. exact C.
Qed.
Lemma unique_ : exists o1 o o2, feature_origins f' = o1 ++ o :: o2 /\ of_line n o /\ filter (keep n) (feature_origins f') = o1 ++ o2.
Proof.
  assert (P' : parse_with false false (s "en") (a ++ m ++ b) = Ok d') by (unfold read_file in R; now rewrite M in R).
  assert (A : stands_for (s "en") (numbered_lines (split_lines (a ++ m ++ b))) (no_ids d')) by (apply (C04_parse_iff false (s "en") _ _ en_supported); eauto).
  destruct (count_stands n _ _ _ A (numbers_nodup _) (some_no_ids _ d' (body_no_ids n) X)) as [f0 [F0 [C I]]]. unfold no_ids in F0. rewrite F in F0. cbn in F0. injection F0 as <-. rewrite lines_ids in C, I. rewrite <- lines_fe in C, I. now apply only_origin.
Qed.
Lemma removed_suite x' k : build_gherkin_model pr name (a ++ m ++ b) dir = Ok (RSuite x', k) -> exists x, build_gherkin_model pr name (a ++ b) dir = Ok (RSuite x, k) /\ test_removed n f' x' x.
Proof.
  intros B'. destruct less_ as [d [f [lang [Rd [Fd [Qf [L C]]]]]]], unique_ as [o1 [o [o2 [Eo [Ho Ek]]]]].
  pose proof (build_eq pr name (a ++ b) dir) as B1. pose proof (build_eq pr name (a ++ m ++ b) dir) as B2. rewrite Rd, Fd in B1. rewrite R, F in B2. rewrite Ek in C.
  destruct (compile d' 0) as [[ps' i']|er] eqn:Cd'; [|rewrite B2 in B'; discriminate B']. rewrite (compile_origins d' f' lang 0 F L), Eo in Cd'. rewrite seq_app_ in Cd', C. apply then_ok in Cd' as [q1 [q23 [C1 [C23 Ep]]]]. cbn [fst] in Ep.
  change (then_ (ocompile f' lang o (snd q1)) (compile_seq (ocompile f' lang) o2) = Ok q23) in C23. apply then_ok in C23 as [q [q2 [Co [C2 Eq]]]].
  destruct (ocompile_one _ _ _ _ _ Co) as [p Hp]. rewrite Hp in Eq.
  pose proof (ocompiles_ids f' lang o2 (snd q) (snd q1)) as Sm. rewrite C2 in Sm. destruct q2 as [p2 n2]. destruct (compile_seq (ocompile f' lang) o2 (snd q1)) as [[p2' n2']|e2] eqn:C2'; [|contradiction Sm]. cbn [same_pickles] in Sm.
  destruct (then_do _ (compile_seq (ocompile f' lang) o2) _ _ C1 C2') as [nn Cs]. rewrite Cs in C. destruct (compile d 0) as [[ps i]|er]; [|contradiction C]. cbn [same_pickles fst] in C.
  destruct B1 as [su [W1 [S1 [S2 S3]]]]. exists su. destruct B2 as [su' [W2 [S1' [S2' S3']]]]. rewrite W2 in B'. assert (su' = x') by congruence. assert (Ek' : fe_name f' = k) by congruence. subst su'. clear B' W2.
  assert (En : fe_name f = fe_name f') by (change (fe_name f) with (fe_name (no_id_feature f)); rewrite Qf; reflexivity). split; [rewrite W1, En, Ek'; reflexivity|].
  unfold origins in S2, S2'. rewrite Fd in S2. rewrite F, Eo in S2'. pose proof (Logic.conj S2' S3') as T'. change (cert pr f' (o1 ++ o :: o2) ps' (rs_tests x')) in T'.
  destruct (cert_split pr f' o1 (o :: o2) _ _ T') as [r1 [r2 [t1 [t2' [Er [Et [T1 T2]]]]]]]. change (o :: o2) with ([o] ++ o2) in T2. destruct (cert_split pr f' [o] o2 _ _ T2) as [r [r3 [t [t2 [Er2 [Et2 [T0 T3]]]]]]].
  destruct (cert_length _ _ _ _ _ T1) as [N1 N1']. destruct (cert_length _ _ _ _ _ T0) as [N0 N0']. destruct (cert_length _ _ _ _ _ T3) as [N3 N3']. cbn [length] in N0, N0'.
  pose proof (ocompile_length _ _ _ _ _ C1) as L1. rewrite Er, Er2, Eq in Ep. apply app_eq_len in Ep as [Ep1 Ep2]; [|congruence]. destruct r as [|r [|]]; try discriminate N0. cbn [app fst] in Ep2. assert (Ep3 : r3 = p2) by congruence.
  destruct t as [|t [|]]; try discriminate N0'. exists o1, o, o2, t1, t, t2. split; [exact Eo|]. split; [exact Ho|]. split; [rewrite Et, Et2; reflexivity|]. split; [exact N1'|]. split; [exact N3'|].
  assert (V : map (pview f) (feature_origins f) = map (ren_view (moved_up n)) (map (pview f') (o1 ++ o2))).
  { fold (views f). rewrite <- (views_ids f), Qf, views_ren, less_ids, views_ids, views_less, Ek. reflexivity. }
  split.
  - apply (tests_placed (moved_up n) pr f' f _ _ _ (cert_app pr f' _ _ _ _ _ _ T1 T3) _ _ _ (Logic.conj S2 S3) V). rewrite C, !map_app, Ep1, Ep3, Sm. reflexivity.
  - destruct S1 as [D1 [D2 [D3 [D4 D5]]]], S1' as [D1' [D2' [D3' [D4' D5']]]].
    assert (De : fe_desc f = fe_desc f') by (change (fe_desc f) with (fe_desc (no_id_feature f)); rewrite Qf; reflexivity).
    assert (Tg : map tag_name (fe_tags f) = map tag_name (fe_tags f')).
    { assert (T : map tag_name (fe_tags (no_id_feature f)) = map tag_name (fe_tags f')) by (rewrite Qf; cbn; now rewrite !map_map). cbn in T. rewrite !map_map in T. exact T. }
    assert (TT : rs_test_tags su = rs_test_tags x') by (apply cons_inj; now rewrite D4, D4').
    split; [now rewrite D1, D1', De|]. split; [congruence|]. split; [rewrite D3 in *; congruence|]. split; [|exact TT].
    rewrite D5, D5', TT. destruct (fe_tags f), (fe_tags f'); try discriminate Tg; reflexivity.
Qed.
End Removed.

(** C84.  A line of a file is a row of examples, not the header.  If the file is a suite, then so is the file without that line: its tests are
    exactly those of the other rows and scenarios, in the same order, only the lines below it are moved up. *)
Theorem C84_removed : forall printable name dir a m b x' n d f, is_markdown name = false -> one_line_between a m b ->
  read_file name (a ++ m ++ b) = Ok d -> gd_feature d = Some f -> example_row (S (line_count a)) d ->
  build_gherkin_model printable name (a ++ m ++ b) dir = Ok (RSuite x', n) ->
  exists x, build_gherkin_model printable name (a ++ b) dir = Ok (RSuite x, n) /\ test_removed (S (line_count a)) f x' x.
Proof. intros pr name dir a m b x' n d f M O R F X B. eapply removed_suite; eauto. Qed.
Print Assumptions C84_removed.

(** ** Added rows *)
Definition header_plain (e : examples) : Prop := match ex_header e with Some h => Forall PickleSpec.plain (map cell_value (row_cells h)) | None => True end.
Lemma ocompile_fine f lang o i : feature_wf f -> In o (feature_origins f) -> Forall PickleSpec.plain (header_names o) -> exists q, ocompile f lang o i = Ok q.
Proof.
  intros [_ [Hb [Hs Hr]]] Ho Pl. rewrite Forall_forall in Hs, Hr.
  assert (G : exists ru sc, o_rule o = ru /\ o_scenario o = sc /\ scenario_wf sc /\ Forall step_complete (bg_steps_of (fe_background f) ++ rule_bg ru) /\ In o (scenario_origins ru sc)).
  { apply bg_complete in Hb. assert (Q : forall ru sc, In o (scenario_origins ru sc) -> o_rule o = ru /\ o_scenario o = sc).
    { intros ru sc. unfold scenario_origins. destruct (sc_examples sc) as [|e es]; [intros [<-|[]]; now split|]. intros K. apply in_flat_map in K as [x [_ K]]. unfold examples_origins in K. destruct (ex_header x) as [hx|]; [|destruct K]. apply in_map_iff in K as [r [<- _]]. now split. }
    unfold feature_origins in Ho. apply in_app_or in Ho as [Ho|Ho].
    - apply in_flat_map in Ho as [sc [H1 H2]]. exists None, sc. destruct (Q _ _ H2). repeat (split; [auto|]); [apply Forall_app; split; [exact Hb | constructor] | exact H2].
    - apply in_flat_map in Ho as [ru [H1 Ho]]. apply in_flat_map in Ho as [sc [H2 H3]]. destruct (Hr ru H1) as [B1 [B2 _]]. rewrite Forall_forall in B2. exists (Some ru), sc. destruct (Q _ _ H3). repeat (split; [auto|]); [apply Forall_app; split; [exact Hb | now apply bg_complete] | exact H3]. }
  destruct G as [ru [sc [Er [Es [W [C I]]]]]]. destruct W as [W1 [W2 W3]].
  assert (Z : exists sc', scenario_wf sc' /\ Forall (fun o => Forall PickleSpec.plain (header_names o)) (scenario_origins ru sc') /\ compile_one (fe_tags f ++ rule_tags ru) (bg_steps_of (fe_background f) ++ rule_bg ru) lang sc' i = then_ (ocompile f lang o i) (fun k => Ok ([], k))).
  { unfold ocompile. rewrite Er, Es. unfold scenario_origins in I. destruct (sc_examples sc) as [|e0 es] eqn:E.
    - destruct I as [<-|[]]. cbn [o_row]. exists sc. split; [split; [exact W1|]; split; [exact W2 | rewrite E; constructor]|]. split; [unfold scenario_origins; rewrite E; constructor; [constructor | constructor]|]. unfold compile_one. rewrite E. symmetry. apply then_nil.
    - rewrite <- E in *. apply in_flat_map in I as [e [He I]]. unfold examples_origins in I. destruct (ex_header e) as [h|] eqn:Eh; [|destruct I]. apply in_map_iff in I as [r [<- Hr']]. cbn [o_row header_names] in *.
      set (e' := mkExamples (ex_id e) (ex_tags e) (ex_loc e) (ex_keyword e) (ex_name e) (ex_desc e) (Some h) [r]).
      exists (mkScenario (sc_id sc) (sc_tags sc) (sc_loc sc) (sc_keyword sc) (sc_name sc) (sc_desc sc) (sc_steps sc) [e']). split; [|split].
      + split; [exact W1|]. split; [exact W2|]. cbn [sc_examples]. constructor; [|constructor]. rewrite Forall_forall in W3. destruct (W3 e He) as [V1 [V2 V3]]. split; [|split; assumption]. unfold examples_rectangular in *. rewrite Eh in V1. cbn [e' ex_header ex_body]. unfold rows_width in *. rewrite Forall_forall in V1. constructor; [now apply V1 | constructor].
      + cbn. constructor; [exact Pl | constructor].
      + unfold compile_one, compile_outline. cbn [sc_examples compile_seq]. unfold compile_examples. cbn [e' ex_header ex_body compile_seq].
        change (compile_row (fe_tags f ++ rule_tags ru) (bg_steps_of (fe_background f) ++ rule_bg ru) (mkScenario (sc_id sc) (sc_tags sc) (sc_loc sc) (sc_keyword sc) (sc_name sc) (sc_desc sc) (sc_steps sc) [e']) e' (row_cells h) lang r i) with (compile_row (fe_tags f ++ rule_tags ru) (bg_steps_of (fe_background f) ++ rule_bg ru) sc e (row_cells h) lang r i).
        destruct (compile_row _ _ sc e (row_cells h) lang r i) as [[p k]|]; reflexivity. }
  destruct Z as [sc' [Z1 [Z2 Z3]]]. pose proof (one_fine True ru (fe_tags f ++ rule_tags ru) (bg_steps_of (fe_background f) ++ rule_bg ru) lang sc' i C Z1 (fun _ => Z2)) as Fi. rewrite Z3 in Fi.
  destruct (ocompile f lang o i) as [q|er]; [eauto|]. cbn in Fi. exfalso. unfold then_ in Fi. cbn [rbind fine] in Fi. now destruct Fi as [Fi _]; apply Fi.
Qed.
Lemma some_back (Q : examples -> Prop) d : (forall e, Q (no_id_examples e) -> Q e) -> some_examples Q (no_ids d) -> some_examples Q d.
Proof.
  intros H. unfold some_examples. destruct d as [[f|] cs]; cbn [no_ids gd_feature option_map]; [|auto].
  assert (A : forall x, sc_some Q (no_id_scenario x) -> sc_some Q x).
  { intros x K. unfold sc_some in *. cbn [no_id_scenario sc_examples] in K. apply (proj1 (exists_map _ _ _)) in K. eapply Exists_impl; [|exact K]. exact H. }
  assert (B : forall x, ru_some Q (no_id_rule x) -> ru_some Q x).
  { intros x K. unfold ru_some in *. cbn [no_id_rule ru_scenarios] in K. apply (proj1 (exists_map _ _ _)) in K. eapply Exists_impl; [|exact K]. exact A. }
  unfold fe_some. cbn [no_id_feature fe_scenarios fe_rules]. intros [K|K]; apply (proj1 (exists_map _ _ _)) in K; [left | right]; eapply Exists_impl; try exact K; assumption.
Qed.
Lemma some_on (Q Q' : examples -> Prop) h d : (forall e, Q e -> Q' (h e)) -> some_examples Q d -> some_examples Q' (on_examples h d).
Proof.
  intros H. unfold some_examples. destruct d as [[f|] cs]; cbn [on_examples gd_feature option_map]; [|auto].
  assert (A : forall x, sc_some Q x -> sc_some Q' (on_scenario h x)).
  { intros x K. unfold sc_some in *. cbn [on_scenario sc_examples]. apply exists_map. eapply Exists_impl; [|exact K]. exact H. }
  assert (B : forall x, ru_some Q x -> ru_some Q' (on_rule h x)).
  { intros x K. unfold ru_some in *. cbn [on_rule ru_scenarios]. apply exists_map. eapply Exists_impl; [|exact K]. exact A. }
  unfold fe_some. cbn [on_feature fe_scenarios fe_rules]. intros [K|K]; [left | right]; apply exists_map; eapply Exists_impl; try exact K; assumption.
Qed.
Lemma some_origin n f : fe_some (fun e => body_row n e /\ header_plain e) f -> Forall scenario_wf (fe_scenarios f) -> Forall rule_wf (fe_rules f) -> exists o, In o (feature_origins f) /\ of_line n o /\ Forall PickleSpec.plain (header_names o).
Proof.
  intros K W1 W2. assert (S : forall ru sc, scenario_wf sc -> sc_some (fun e => body_row n e /\ header_plain e) sc -> exists o, In o (scenario_origins ru sc) /\ of_line n o /\ Forall PickleSpec.plain (header_names o)).
  { intros ru sc [_ [_ W]] H. unfold sc_some in H. apply Exists_exists in H as [e [He [H1 H2]]]. unfold body_row in H1. apply Exists_exists in H1 as [r [Hr Lr]]. rewrite Forall_forall in W. destruct (W e He) as [V _]. unfold examples_rectangular in V.
    unfold header_plain in H2. destruct (ex_header e) as [h|] eqn:Eh; [|rewrite V in Hr; destruct Hr]. exists (mkOrigin ru sc (Some (e, h, r))). split; [|split; [exact Lr | exact H2]].
    unfold scenario_origins. destruct (sc_examples sc) as [|e0 es] eqn:E; [destruct He|]. rewrite <- E in He |- *. rewrite E. rewrite E in He. apply in_flat_map. exists e. split; [exact He|]. unfold examples_origins. rewrite Eh. apply in_map_iff. eauto. }
  rewrite Forall_forall in W1, W2. unfold feature_origins. destruct K as [K|K]; apply Exists_exists in K as [x [Hx K]].
  - destruct (S None x (W1 x Hx) K) as [o [H1 H2]]. exists o. split; [|exact H2]. apply in_or_app. left. apply in_flat_map. eauto.
  - apply Exists_exists in K as [sc [Hsc K]]. destruct (W2 x Hx) as [_ [V _]]. rewrite Forall_forall in V. destruct (S (Some x) sc (V sc Hsc) K) as [o [H1 H2]]. exists o. split; [|exact H2]. apply in_or_app. right. apply in_flat_map. exists x. split; [exact Hx|]. apply in_flat_map. eauto.
Qed.
(** C84.  The last line of [a] is the header or a row of examples whose columns' names are plain words (C25), and [m] is a row with as many cells.
    If [a] and [b] are a suite, then so are [a], [m], [b], and its tests are the same, and one more for the new row. *)
Theorem C84_added : forall printable name dir a m b x n d line items, is_markdown name = false -> one_line_between a m b -> split_lines m = [line] -> row_line line items ->
  read_file name (a ++ b) = Ok d -> some_examples (fun e => table_row (line_count a) (length items) e /\ header_plain e) d ->
  build_gherkin_model printable name (a ++ b) dir = Ok (RSuite x, n) ->
  exists d' f' x', read_file name (a ++ m ++ b) = Ok d' /\ gd_feature d' = Some f' /\ example_row (S (line_count a)) d' /\
    build_gherkin_model printable name (a ++ m ++ b) dir = Ok (RSuite x', n) /\ test_removed (S (line_count a)) f' x' x.
Proof.
  intros pr name dir a m b x n d line items M O Sl Rl R K B. assert (P : parse_with false false (s "en") (a ++ b) = Ok d) by (unfold read_file in R; now rewrite M in R).
  assert (K1 : some_examples (table_row (line_count a) (length items)) d).
  { unfold some_examples in *. destruct (gd_feature d) as [f|]; [|exact K]. destruct K as [K|K]; [left | right]; (eapply Exists_impl; [|exact K]); intros y Ky; (eapply Exists_impl; [|exact Ky]); [intros e []; assumption|]. intros z Kz. (eapply Exists_impl; [|exact Kz]). intros e []. assumption. }
  destruct (C84_added_document false (s "en") a m b d line items en_supported O Sl Rl P K1) as [d' [P' Q]]. set (new := mkRow 0 _ _) in Q. set (k := line_count a) in *.
  assert (K2 : some_examples (fun e => body_row (S k) e /\ header_plain e) d').
  { apply some_back; [intros e [J1 J2]; split; [unfold body_row in *; cbn [no_id_examples ex_body] in J1; apply (proj1 (exists_map _ _ _)) in J1; exact J1 | unfold header_plain in *; cbn [no_id_examples ex_header] in J2; destruct (ex_header e); exact J2]|].
    rewrite Q. unfold row_added. apply (some_on (fun e => table_row k (length items) e /\ header_plain e)).
    - intros e [[h [E1 [E2 E3]]] E4]. split.
      + unfold body_row, more_examples. cbn [ex_body]. rewrite E1. apply Exists_app. inversion E3 as [? ? J|? ? J]; subst.
        * left. unfold on_line in J. rewrite (proj2 (Nat.eqb_eq _ _) J). left. reflexivity.
        * right. apply Exists_exists in J as [r [Hr Lr]]. apply Exists_exists. exists new. split; [|reflexivity]. apply in_flat_map. exists r. split; [exact Hr|]. unfold on_line in Lr. rewrite (proj2 (Nat.eqb_eq _ _) Lr). right. now left.
      + unfold header_plain, more_examples in *. cbn [ex_header]. exact E4.
    - apply (some_ren (fun e => table_row k (length items) e /\ header_plain e)).
      + intros e [[h [E1 [E2 E3]]] E4]. split.
        * exists (ren_row (moved_down k 1) h). cbn [ren_examples ex_header ex_body]. rewrite E1. split; [reflexivity|]. cbn [ren_row row_cells]. rewrite !map_length. split; [exact E2|].
          change (Exists (on_line k) (map (ren_row (moved_down k 1)) (h :: ex_body e))). apply exists_map. eapply Exists_impl; [|exact E3]. intros q Hq. unfold on_line in *. cbn [ren_row row_loc ren_loc l_line]. rewrite Hq. unfold moved_down. now rewrite Nat.ltb_irrefl.
        * unfold header_plain in *. cbn [ren_examples ex_header]. rewrite E1 in *. cbn [option_map ren_row row_cells]. rewrite map_map. exact E4.
      + apply some_no_ids; [|exact K]. intros e [[h [E1 [E2 E3]]] E4]. split.
        * exists (no_id_row h). cbn [no_id_examples ex_header ex_body]. rewrite E1. split; [reflexivity|]. split; [exact E2|]. change (Exists (on_line k) (map no_id_row (h :: ex_body e))). apply exists_map. exact E3.
        * unfold header_plain in *. cbn [no_id_examples ex_header]. rewrite E1 in *. exact E4. }
  assert (X : example_row (S k) d').
  { unfold example_row, some_examples in *. destruct (gd_feature d') as [f|]; [|exact K2]. destruct K2 as [J|J]; [left | right]; (eapply Exists_impl; [|exact J]); intros y Ky; (eapply Exists_impl; [|exact Ky]); [intros e []; assumption|]. intros z Kz. (eapply Exists_impl; [|exact Kz]). intros e []. assumption. }
  destruct (gd_feature d') as [f'|] eqn:F'; [|unfold some_examples in K2; rewrite F' in K2; destruct K2].
  assert (R' : read_file name (a ++ m ++ b) = Ok d') by (unfold read_file; now rewrite M). pose proof (parsed_wf false false (s "en") _ d' en_supported P') as W. unfold doc_wf in W. rewrite F' in W. cbn [opt_wf] in W.
  assert (E : exists x' n', build_gherkin_model pr name (a ++ m ++ b) dir = Ok (RSuite x', n')).
  { destruct (less_ name a m b d' f' M O R' F' X) as [d1 [f1 [lang [Rd [Fd [Qf [L C]]]]]]], (unique_ name a m b d' f' M R' F' X) as [o1 [o [o2 [Eo [Ho Ek]]]]]. fold k in Ek, Ho, C. rewrite Ek in C. assert (d1 = d) by congruence. subst d1.
    assert (Ih : Forall PickleSpec.plain (header_names o)).
    { unfold some_examples in K2. rewrite F' in K2. destruct (some_origin (S k) f' K2) as [o' [I1 [I2 I3]]]; [apply W | apply W|]. destruct (keep (S k) o') eqn:Kp.
      - exfalso. unfold keep, of_line, off_line, on_line in *. destruct (o_row o') as [[[e h] r]|]; [|exact I2]. rewrite (proj2 (Nat.eqb_eq _ _) I2) in Kp. discriminate Kp.
      - rewrite Eo in I1. apply in_app_or in I1 as [I1|[->|I1]]; [| exact I3 |].
        + exfalso. assert (J : In o' (filter (keep (S k)) (feature_origins f'))) by (rewrite Ek; apply in_or_app; now left). apply filter_In in J as [_ J]. congruence.
        + exfalso. assert (J : In o' (filter (keep (S k)) (feature_origins f'))) by (rewrite Ek; apply in_or_app; now right). apply filter_In in J as [_ J]. congruence. }
    pose proof (build_eq pr name (a ++ b) dir) as B1. pose proof (build_eq pr name (a ++ m ++ b) dir) as B2. rewrite R, Fd in B1. rewrite R', F' in B2.
    destruct (compile d 0) as [[ps i]|er]; [|rewrite B1 in B; discriminate B]. destruct (compile_seq (ocompile f' lang) (o1 ++ o2) 0) as [q|er] eqn:Cq; [|contradiction C]. clear C. rewrite seq_app_ in Cq. apply then_ok in Cq as [q1 [q2 [C1 [C2 _]]]].
    destruct (ocompile_fine f' lang o (snd q1) W ltac:(rewrite Eo; apply in_or_app; right; now left) Ih) as [q3 C3].
    pose proof (ocompiles_ids f' lang o2 (snd q1) (snd q3)) as Sm. rewrite C2 in Sm. destruct q2 as [p2 n2]. destruct (compile_seq (ocompile f' lang) o2 (snd q3)) as [q4|] eqn:C4; [|contradiction Sm].
    destruct (then_do _ (compile_seq (ocompile f' lang) o2) _ _ C3 C4) as [j Cj]. change (compile_seq (ocompile f' lang) (o :: o2) (snd q1) = Ok (fst q3 ++ fst q4, j)) in Cj.
    destruct (then_do _ (compile_seq (ocompile f' lang) (o :: o2)) _ _ C1 Cj) as [j' Cl]. rewrite <- seq_app_, <- Eo in Cl. rewrite (compile_origins d' f' lang 0 F' L), Cl in B2. destruct B2 as [su' [W2 _]]. eauto. }
  destruct E as [x' [n' B']]. destruct (C84_removed pr name dir a m b x' n' d' f' M O R' F' X B') as [x0 [B0 T]]. assert (x0 = x) by congruence. assert (n' = n) by congruence. subst x0 n'. exists d', f', x'. auto.
Qed.
Print Assumptions C84_added.

(** ** A concrete case: a row of the first of two tables of an outline in a rule *)
Definition c84_a : str := text_of_lines [s "Feature: f"; s "  Rule: r"; s "    Scenario Outline: o"; s "      Given <x>"; s "      Examples:"; s "        | x | y |"; s "        | 1 | 2 |"].
Definition c84_m : str := text_of_lines [s "        | 3 | 4 |"].
Definition c84_b : str := text_of_lines [s "        # note"; s "        | 5 | 6 |"; s "      @t"; s "      Examples:"; s "        | x |"; s "        | 7 |"; s "    Scenario: last"; s "      Then z"].
Definition c84_line : str := s "        | 3 | 4 |" ++ [ch_nl].
Definition c84_d' : gdoc := Eval vm_compute in doc_of (c84_a ++ c84_m ++ c84_b).
Definition c84_d : gdoc := Eval vm_compute in doc_of (c84_a ++ c84_b).
Lemma c84_between : one_line_between c84_a c84_m c84_b.
Proof. split; [exists (removelast c84_a); vm_compute; reflexivity|]. split; [vm_compute; reflexivity|]. left. exists (removelast (c84_a ++ c84_m)). vm_compute. reflexivity. Qed.
Example C84_case : one_line_between c84_a c84_m c84_b /\ split_lines c84_m = [c84_line] /\ line_count c84_a = 7 /\
  read_file (s "a.feature") (c84_a ++ c84_m ++ c84_b) = Ok c84_d' /\ example_row 8 c84_d' /\
  read_file (s "a.feature") (c84_a ++ c84_b) = Ok c84_d /\ (exists items, row_line c84_line items /\ some_examples (fun e => table_row 7 (length items) e /\ header_plain e) c84_d).
Proof.
  split; [exact c84_between|]. split; [vm_compute; reflexivity|]. split; [vm_compute; reflexivity|]. split; [vm_compute; reflexivity|]. split; [|split; [vm_compute; reflexivity|]].
  - right. left. left. left. right. left. reflexivity.
  - eexists. split.
    + exists (s "        "), [s " 3 "; s " 4 "], [ch_nl]. split; [reflexivity|]. split; [repeat constructor|]. split; [repeat constructor; discriminate|]. split; [discriminate | reflexivity].
    + right. left. left. left. split; [eexists; split; [reflexivity|]; split; [reflexivity|]; right; left; reflexivity|]. unfold header_plain. cbn [ex_header map row_cells cell_value]. repeat (constructor; [apply plain_word; vm_compute; reflexivity|]). constructor.
Qed.
Definition c84_names (x : str) : list (str * nat * list nat) :=
  match build_gherkin_model (fun _ => true) (s "a.feature") x None with Ok (RSuite su, _) => map (fun t => (rt_name t, rt_line t, map rc_line (rt_calls t))) (rs_tests su) | _ => [] end.
Example C84_case_suites : c84_names (c84_a ++ c84_m ++ c84_b) = [(s "o x = 1 y = 2", 3, [4]); (s "o x = 3 y = 4", 3, [4]); (s "o x = 5 y = 6", 3, [4]); (s "o x = 7", 3, [4]); (s "last", 15, [16])] /\
  c84_names (c84_a ++ c84_b) = [(s "o x = 1 y = 2", 3, [4]); (s "o x = 5 y = 6", 3, [4]); (s "o x = 7", 3, [4]); (s "last", 14, [15])].
Proof. split; vm_compute; reflexivity. Qed.
