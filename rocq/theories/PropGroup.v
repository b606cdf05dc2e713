(** * Cases in other groups: C105 *)
From Verif Require Import PyStr PyStrFacts Types Regex Line DialectData Matcher Ast Parser Compiler LineSpec LangSpec DocSpec PartsSpec PickleSpec PickleFacts PickleTotal PropLine PropParse PropCompile EssenceSpec EssenceFacts
  Glob Robot RobotSpec SuiteSpec RobotFacts PropRobot WriteSpec PropWrite PropEssence PropStepMore PropSpread GroupSpec.
Import PickleSpec.

Lemma view_keys (x y : list step) : map step_view x = map step_view y -> map st_keyword x = map st_keyword y /\ map st_ktype x = map st_ktype y /\ map step_essence x = map step_essence y.
Proof.
  intros E. pose proof (f_equal (map fst) E) as A. pose proof (f_equal (map snd) E) as B. rewrite !map_map in A, B. unfold step_view in A, B. cbn [fst snd] in A, B. split; [exact A|]. split; [|exact B].
  apply (f_equal (map (fun z => fst (fst z)))) in B. rewrite !map_map in B. exact B.
Qed.
Lemma view_cells o o' : row_view o = row_view o' -> map cell_value (vars_of o) = map cell_value (vars_of o') /\ map cell_value (vals_of o) = map cell_value (vals_of o').
Proof. unfold row_view, vars_of, vals_of. destruct (o_row o) as [[[? ?] ?]|], (o_row o') as [[[? ?] ?]|]; intros E; try discriminate E; [|auto]. unfold values_of in E. split; congruence. Qed.

Section Pickles.
Context (f f' : feature) (Tg : names_of (fe_tags f) = names_of (fe_tags f')) (La : fe_language f = fe_language f').
Lemma view_pickle o o' p p' : case_view f o = case_view f' o' -> pickle_rel f o p -> pickle_rel f' o' p' -> pickle_essence p = pickle_essence p'.
Proof.
  intros V R R'. unfold case_view in V. injection V as V1 V2 V3 V4 V5 V6. destruct (view_cells o o' V4) as [Ev Ew]. destruct (view_keys _ _ V5) as [_ [K5 S5]]. destruct (view_keys _ _ V6) as [_ [K6 S6]].
  assert (N : pk_name p = pk_name p').
  { destruct (pr_name _ _ _ R) as [n [N1 N2]], (pr_name _ _ _ R') as [n' [N1' N2']]. assert (n' = n) by congruence. subst n'. exact (same_text _ _ _ _ Ev Ew _ _ _ N2 N2'). }
  assert (L : pk_language p = pk_language p') by (pose proof (pr_lang _ _ _ R) as L1; pose proof (pr_lang _ _ _ R') as L2; congruence).
  assert (T : map pt_name (pk_tags p) = map pt_name (pk_tags p')).
  { rewrite (pr_tags _ _ _ R), (pr_tags _ _ _ R'), !map_map. cbn [pt_name]. change (origin_tags f o) with (fe_tags f ++ lower_tags o). change (origin_tags f' o') with (fe_tags f' ++ lower_tags o'). rewrite !map_app. f_equal; [exact Tg | exact V3]. }
  assert (K : map ps_type (pk_steps p) = map ps_type (pk_steps p')).
  { rewrite (pr_types _ _ _ R), (pr_types _ _ _ R'). f_equal.
    - clear - V4. unfold init_type. unfold row_view in V4. destruct (o_row o) as [[[? ?] ?]|], (o_row o') as [[[? ?] ?]|]; try discriminate V4; reflexivity.
    - unfold origin_steps. rewrite !map_app. congruence. }
  destruct (pr_steps _ _ _ R) as [p1 [p2 [E1 [E2 E3]]]], (pr_steps _ _ _ R') as [q1 [q2 [F1 [F2 F3]]]].
  destruct (steps_rel_filled [] [] [] [] eq_refl eq_refl _ _ _ _ S5 E2 F2) as [A1 A2]. destruct (steps_rel_filled _ _ _ _ Ev Ew _ _ _ _ S6 E3 F3) as [B1 B2].
  unfold pickle_essence. rewrite N, L, T. f_equal. apply triples; [exact K | |]; rewrite E1, F1, !map_app; congruence.
Qed.
Lemma view_test pr o o' p p' t t' : case_view f o = case_view f' o' -> pickle_essence p = pickle_essence p' -> test_of f o p t -> test_of f' o' p' t' -> Forall2 (exact_args pr) (pk_steps p) (rt_calls t) -> Forall2 (exact_args pr) (pk_steps p') (rt_calls t') ->
  test_shape t = test_shape t'.
Proof.
  intros V Ep [T1 [T2 [T3 [T4 _]]]] [U1 [U2 [U3 [U4 _]]]] X X'. unfold pickle_essence in Ep. injection Ep as P1 _ _ P4. unfold case_view in V. injection V as V1 V2 V3 V4 V5 V6. destruct (view_keys _ _ V5) as [K5 _]. destruct (view_keys _ _ V6) as [K6 _].
  assert (N : rt_name t = rt_name t').
  { rewrite T1, U1, P1. f_equal. destruct (view_cells o o' V4) as [Ev Ew]. assert (C : columns o = columns o') by (rewrite !columns_cells; unfold cols_of; now rewrite Ev, Ew). rewrite C. clear - V4. unfold row_view in V4.
    destruct (o_row o) as [[[ex h] x]|], (o_row o') as [[[ex' h'] x']|]; try discriminate V4; [|reflexivity]. assert (E : ex_keyword ex = ex_keyword ex') by congruence. now rewrite E. }
  assert (G : rt_tags t = rt_tags t') by (apply cons_inj; unfold test_tags in *; rewrite T3, U3; exact V3).
  assert (K : map st_keyword (origin_steps f o) = map st_keyword (origin_steps f' o')) by (unfold origin_steps; rewrite !map_app; congruence).
  unfold test_shape. rewrite N, T2, U2, V2, G. now rewrite (same_calls _ _ _ _ _ _ T4 U4 pr X X' K P4).
Qed.
Lemma view_tests pr : forall os ps ts, Forall3 (test_of f) os ps ts -> forall os' ps' ts', Forall3 (test_of f') os' ps' ts' -> map (case_view f) os = map (case_view f') os' ->
  Forall2 (pickle_rel f) os ps -> Forall2 (pickle_rel f') os' ps' ->
  Forall2 (fun p t => Forall2 (exact_args pr) (pk_steps p) (rt_calls t)) ps ts -> Forall2 (fun p t => Forall2 (exact_args pr) (pk_steps p) (rt_calls t)) ps' ts' -> map test_shape ts = map test_shape ts'.
Proof.
  induction 1 as [|o p t os ps ts H F IH]; intros os' ps' ts' G E R R' X X'; destruct G as [|o' p' t' os' ps' ts' H' G]; try discriminate E; [reflexivity|].
  assert (E1 : case_view f o = case_view f' o') by (cbn [map] in E; congruence). assert (E2 : map (case_view f) os = map (case_view f') os') by (cbn [map] in E; congruence).
  inversion X as [|? ? ? ? X1 X2]; inversion X' as [|? ? ? ? X1' X2']; inversion R as [|? ? ? ? R1 R2]; inversion R' as [|? ? ? ? R1' R2']; subst. cbn [map]. f_equal; [|eapply IH; eauto].
  exact (view_test pr o o' p p' t t' E1 (view_pickle o o' p p' E1 R1 R1') H H' X1 X1').
Qed.
End Pickles.
Lemma view_headers f f' : forall os os', map (case_view f) os = map (case_view f') os' -> Forall (fun o => Forall plain (header_names o)) os -> Forall (fun o => Forall plain (header_names o)) os'.
Proof.
  induction os as [|o os IH]; intros [|o' os'] E P; try discriminate E; constructor; inversion P as [|? ? P1 P2]; subst; [|eapply IH; [|exact P2]; cbn [map] in E; congruence].
  assert (V : case_view f o = case_view f' o') by (cbn [map] in E; congruence). unfold case_view in V. injection V as _ _ _ V4 _ _. rewrite header_cells in *. now rewrite <- (proj1 (view_cells _ _ V4)).
Qed.

(** ** C105 *)
(** C105.  Two files (classic or Markdown) that say the same of the feature and have the same cases in the same order give the same suite (places aside), however the cases are
    grouped into tables, outlines, rules and the feature. *)
Theorem C105_same_suite : forall printable name name' content content' dir d d' f f',
  read_file name content = Ok d -> read_file name' content' = Ok d' -> gd_feature d = Some f -> gd_feature d' = Some f' -> feature_view f = feature_view f' -> plain_headers d ->
  exists x x', build_gherkin_model printable name content dir = Ok (RSuite x, fe_name f) /\ build_gherkin_model printable name' content' dir = Ok (RSuite x', fe_name f) /\ suite_shape x = suite_shape x'.
Proof.
  intros pr name name' content content' dir d d' f f' R R' F F' Q P. pose proof (build_eq pr name content dir) as B. pose proof (build_eq pr name' content' dir) as B'. rewrite R in B. rewrite R' in B'.
  unfold feature_view in Q. injection Q as Q1 Q2 Q3 Q4 Q5.
  assert (P' : plain_headers d') by (unfold plain_headers, origins in *; rewrite F in P; rewrite F'; exact (view_headers f f' _ _ Q5 P)).
  destruct (compiles _ _ _ R P) as [ps [i C]], (compiles _ _ _ R' P') as [ps' [i' C']]. rewrite C, F in B. rewrite C', F' in B'. destruct B as [su [-> [S1 [S2 S3]]]], B' as [su' [-> [S1' [S2' S3']]]].
  destruct (compile_pickles d f 0 ps i F C) as [K _]. destruct (compile_pickles d' f' 0 ps' i' F' C') as [K' _]. unfold origins in *. rewrite F in *. rewrite F' in *.
  pose proof (view_tests f f' Q1 Q2 pr _ _ _ S2 _ _ _ S2' Q5 K K' S3 S3') as T. destruct S1 as [A1 [A2 [A3 [A4 A5]]]], S1' as [A1' [A2' [A3' [A4' A5']]]].
  exists su, su'. split; [reflexivity|]. split; [now rewrite Q3|]. unfold suite_shape. rewrite A1, A1', <- Q4, A2, A2', T. rewrite A3 in A3'. injection A3' as ->. unfold names_of in Q1.
  assert (TT : rs_test_tags su = rs_test_tags su') by (apply cons_inj; now rewrite A4, A4').
  rewrite A5, A5', TT. destruct (fe_tags f), (fe_tags f'); try discriminate Q1; reflexivity.
Qed.
Print Assumptions C105_same_suite.

(** C105.  The same with any headers, if both files give suites. *)
Theorem C105_any_headers : forall printable name name' content content' dir d d' f f' x x' n n',
  read_file name content = Ok d -> read_file name' content' = Ok d' -> gd_feature d = Some f -> gd_feature d' = Some f' -> feature_view f = feature_view f' ->
  build_gherkin_model printable name content dir = Ok (RSuite x, n) -> build_gherkin_model printable name' content' dir = Ok (RSuite x', n') -> suite_shape x = suite_shape x' /\ n = n'.
Proof.
  intros pr name name' content content' dir d d' f f' x x' n n' R R' F F' Q H H'. pose proof (build_eq pr name content dir) as B. pose proof (build_eq pr name' content' dir) as B'. rewrite R in B. rewrite R' in B'.
  unfold feature_view in Q. injection Q as Q1 Q2 Q3 Q4 Q5. rewrite F in B. rewrite F' in B'.
  destruct (compile d 0) as [[ps i]|e] eqn:C; [|rewrite H in B; discriminate B]. destruct (compile d' 0) as [[ps' i']|e] eqn:C'; [|rewrite H' in B'; discriminate B'].
  destruct B as [su [E [S1 [S2 S3]]]], B' as [su' [E' [S1' [S2' S3']]]]. rewrite H in E. rewrite H' in E'. assert (X : su = x) by congruence. assert (X' : su' = x') by congruence. subst su su'.
  destruct (compile_pickles d f 0 ps i F C) as [K _]. destruct (compile_pickles d' f' 0 ps' i' F' C') as [K' _]. unfold origins in *. rewrite F in *. rewrite F' in *.
  pose proof (view_tests f f' Q1 Q2 pr _ _ _ S2 _ _ _ S2' Q5 K K' S3 S3') as T. destruct S1 as [A1 [A2 [A3 [A4 A5]]]], S1' as [A1' [A2' [A3' [A4' A5']]]].
  split; [|congruence]. unfold suite_shape. rewrite A1, A1', <- Q4, A2, A2', T. rewrite A3 in A3'. assert (Z : rs_resources x = rs_resources x') by congruence. rewrite Z. unfold names_of in Q1.
  assert (TT : rs_test_tags x = rs_test_tags x') by (apply cons_inj; now rewrite A4, A4').
  rewrite A5, A5', TT. destruct (fe_tags f), (fe_tags f'); try discriminate Q1; reflexivity.
Qed.
Print Assumptions C105_any_headers.

(** what a feature says does not depend on ids and places *)
Lemma view_step_plain l : map step_view (map plain_step l) = map step_view l.
Proof. rewrite map_map. apply map_ext. intros x. unfold step_view. pose proof (e_steps [x]) as E. cbn [map] in E. cbn [st_keyword plain_step]. f_equal. injection E as E. unfold step_essence. cbn. congruence. Qed.
Lemma view_plain f : feature_view (WriteSpec.plain f) = feature_view f.
Proof.
  unfold feature_view. rewrite p_origins. cbn [fe_tags fe_language fe_name fe_desc WriteSpec.plain]. rewrite e_tags. f_equal. rewrite map_map. apply map_ext. intros o. unfold case_view.
  assert (I : map step_view (inherited_steps (WriteSpec.plain f) (plain_origin o)) = map step_view (inherited_steps f o)).
  { unfold inherited_steps. cbn. destruct (sc_steps (o_scenario o)); [reflexivity|]. cbn [map]. rewrite !map_app. f_equal; [destruct (fe_background f); cbn; [apply view_step_plain | reflexivity]|].
    destruct (o_rule o) as [r|]; cbn; [|reflexivity]. destruct (ru_background r); cbn; [apply view_step_plain | reflexivity]. }
  assert (L : names_of (lower_tags (plain_origin o)) = names_of (lower_tags o)) by exact (p_lower o).
  assert (W : row_view (plain_origin o) = row_view o) by (unfold row_view, plain_origin; destruct (o_row o) as [[[ex h] r]|]; cbn [o_row]; [now rewrite !e_row | reflexivity]).
  rewrite I, L, W. cbn [plain_origin o_scenario plain_scenario sc_name sc_desc sc_steps]. now rewrite view_step_plain.
Qed.
(** C105.  Every way to group the cases that can be written down gives the same suite. *)
Theorem C105_written : forall printable name content dir d f g, is_markdown name = false -> read_file name content = Ok d -> gd_feature d = Some f -> plain_headers d ->
  writable g -> feature_view g = feature_view f ->
  exists x x', build_gherkin_model printable name content dir = Ok (RSuite x, fe_name f) /\ build_gherkin_model printable name (feature_text g) dir = Ok (RSuite x', fe_name f) /\ suite_shape x = suite_shape x'.
Proof.
  intros pr name content dir d f g M R F P W Q. destruct (C54_written false (s "en") g en_ok W) as [d' [f' [R' [F' [_ E]]]]].
  apply (C105_same_suite pr name name content _ dir d d' f f'); auto; [unfold read_file; now rewrite M|]. rewrite <- Q, <- (view_plain g), <- E. apply view_plain.
Qed.
Print Assumptions C105_written.

(** ** Ways to group *)
Lemma views_app f a b : map (case_view f) (a ++ b) = map (case_view f) a ++ map (case_view f) b. Proof. apply map_app. Qed.
Lemma scenarios_view f x xs a b : fe_scenarios f = a ++ x :: b ->
  map (case_view f) (scenario_origins None x) = map (case_view f) (flat_map (scenario_origins None) xs) ->
  feature_view (with_scenarios f (a ++ xs ++ b)) = feature_view f.
Proof.
  intros E V. unfold feature_view. cbn [with_scenarios fe_tags fe_language fe_name fe_desc]. f_equal. unfold feature_origins. cbn [with_scenarios fe_scenarios fe_rules]. rewrite E.
  change (case_view (with_scenarios f (a ++ xs ++ b))) with (case_view f). cbn [flat_map]. rewrite !flat_map_app. cbn [flat_map]. rewrite !map_app, V. reflexivity.
Qed.
Lemma examples_set f x l ex : map (case_view f) (examples_origins None (with_examples x l) ex) = map (case_view f) (examples_origins None x ex).
Proof. unfold examples_origins. destruct (ex_header ex); [|reflexivity]. rewrite !map_map. reflexivity. Qed.
Lemma examples_sets f x l m : map (case_view f) (flat_map (examples_origins None (with_examples x l)) m) = map (case_view f) (flat_map (examples_origins None x) m).
Proof. induction m as [|e m IH]; [reflexivity|]. cbn [flat_map]. now rewrite !map_app, IH, examples_set. Qed.
Lemma outline_view ru x : sc_examples x <> [] -> scenario_origins ru x = flat_map (examples_origins ru x) (sc_examples x).
Proof. unfold scenario_origins. now destruct (sc_examples x). Qed.
(** C105.  The examples blocks of an outline may be given to two outlines. *)
Theorem C105_split_outline : forall f a x b e1 e2, fe_scenarios f = a ++ x :: b -> sc_examples x = e1 ++ e2 -> e1 <> [] -> e2 <> [] ->
  feature_view (with_scenarios f (a ++ [with_examples x e1; with_examples x e2] ++ b)) = feature_view f.
Proof.
  intros f a x b e1 e2 E X N1 N2. apply (scenarios_view f x _ a b E). cbn [flat_map]. rewrite app_nil_r, map_app, !outline_view; [|assumption|assumption|rewrite X; destruct e1; [easy | discriminate]].
  cbn [with_examples sc_examples]. rewrite !examples_sets, X, flat_map_app. apply map_app.
Qed.
(** C105.  The rows of an examples table may be given to two tables. *)
Theorem C105_split_table : forall f a x b e1 e e2 r1 r2, fe_scenarios f = a ++ x :: b -> sc_examples x = e1 ++ e :: e2 -> ex_body e = r1 ++ r2 ->
  feature_view (with_scenarios f (a ++ [with_examples x (e1 ++ [with_body e r1; with_body e r2] ++ e2)] ++ b)) = feature_view f.
Proof.
  intros f a x b e1 e e2 r1 r2 E X Y. apply (scenarios_view f x _ a b E). cbn [flat_map]. rewrite app_nil_r, !outline_view; [|cbn; now destruct e1|rewrite X; now destruct e1].
  cbn [with_examples sc_examples]. rewrite examples_sets, X, !flat_map_app. cbn [flat_map]. rewrite !map_app. f_equal. cbn [map]. rewrite ?app_nil_r. f_equal.
  unfold examples_origins. cbn [with_body ex_header ex_body]. destruct (ex_header e); [|reflexivity]. rewrite Y, !map_app, !map_map. reflexivity.
Qed.
(** C105.  A first rule without tags and background may be dissolved: its scenarios become the last ones outside rules. *)
Theorem C105_first_rule_dissolved : forall f r rs, fe_rules f = r :: rs -> ru_tags r = [] -> background_steps (ru_background r) = [] ->
  feature_view (with_parts f (fe_scenarios f ++ ru_scenarios r) rs) = feature_view f.
Proof.
  intros f r rs E T B. unfold feature_view. cbn [with_parts fe_tags fe_language fe_name fe_desc]. f_equal. unfold feature_origins. cbn [with_parts fe_scenarios fe_rules]. rewrite E. cbn [flat_map].
  change (case_view (with_parts f (fe_scenarios f ++ ru_scenarios r) rs)) with (case_view f). rewrite flat_map_app, !map_app, <- app_assoc. f_equal. f_equal.
  induction (ru_scenarios r) as [|x l IH]; [reflexivity|]. cbn [flat_map]. rewrite !map_app, IH. f_equal. clear IH.
  assert (G : forall w, case_view f (mkOrigin None x w) = case_view f (mkOrigin (Some r) x w)).
  { intros w. unfold case_view, lower_tags, inherited_steps, row_view. cbn [o_rule o_scenario o_row]. rewrite T, B. reflexivity. }
  unfold scenario_origins. destruct (sc_examples x) as [|e m]; [cbn [map]; now rewrite G|]. generalize (e :: m). intros k. induction k as [|c k IH]; [reflexivity|]. cbn [flat_map]. rewrite !map_app, IH. f_equal.
  unfold examples_origins. destruct (ex_header c); [|reflexivity]. rewrite !map_map. apply map_ext. intros z. apply G.
Qed.
Print Assumptions C105_first_rule_dissolved.

(** C105.  A table without rows gives no case: beside another table it may be left out, and an outline of such tables may be left out. *)
Theorem C105_empty_table : forall f a x b e1 e e2, fe_scenarios f = a ++ x :: b -> sc_examples x = e1 ++ e :: e2 -> ex_header e = None \/ ex_body e = [] -> e1 ++ e2 <> [] ->
  feature_view (with_scenarios f (a ++ [with_examples x (e1 ++ e2)] ++ b)) = feature_view f.
Proof.
  intros f a x b e1 e e2 E X N M. apply (scenarios_view f x _ a b E). cbn [flat_map]. rewrite app_nil_r, !outline_view; [|exact M|rewrite X; now destruct e1].
  cbn [with_examples sc_examples]. rewrite examples_sets, X, !flat_map_app. cbn [flat_map]. replace (examples_origins None x e) with (@nil origin); [reflexivity|]. unfold examples_origins. destruct N as [-> | ->]; [reflexivity|]. now destruct (ex_header e).
Qed.
Theorem C105_empty_outline : forall f a x b, fe_scenarios f = a ++ x :: b -> sc_examples x <> [] -> Forall (fun e => ex_header e = None \/ ex_body e = []) (sc_examples x) ->
  feature_view (with_scenarios f (a ++ [] ++ b)) = feature_view f.
Proof.
  intros f a x b E N F. apply (scenarios_view f x _ a b E). rewrite (outline_view None x N). cbn [flat_map map]. clear N E. generalize dependent (sc_examples x). intros l. induction 1 as [|e l H F IH]; [reflexivity|]. cbn [flat_map]. rewrite map_app, IH, app_nil_r.
  unfold examples_origins. destruct H as [-> | ->]; [reflexivity|]. now destruct (ex_header e).
Qed.
(** C105.  A rule without scenarios may be left out. *)
Theorem C105_empty_rule : forall f a r b, fe_rules f = a ++ r :: b -> ru_scenarios r = [] -> feature_view (with_parts f (fe_scenarios f) (a ++ b)) = feature_view f.
Proof.
  intros f a r b E N. unfold feature_view. cbn [with_parts fe_tags fe_language fe_name fe_desc]. f_equal. unfold feature_origins. cbn [with_parts fe_scenarios fe_rules]. rewrite E, !flat_map_app. cbn [flat_map]. rewrite N. reflexivity.
Qed.
Print Assumptions C105_empty_rule.

(** ** Cases *)
Definition c105_text : str := text_of_lines [s "Feature: f"; s "Background: b"; s "Given a"; s "Scenario Outline: two <n>"; s "But d <n>"; s "@t"; s "Examples:"; s "| n |"; s "| 1 |"; s "| 2 |"; s "Examples: more"; s "| m |"; s "| 3 |"; s "Rule: r"; s "Scenario: three"; s "Then e";
  s "Rule: q"; s "Scenario: four"; s "Then g"].
Definition c105_text' : str := text_of_lines [s "Feature: f"; s "Background: b"; s "Given a"; s "Scenario Outline: two <n>"; s "But d <n>"; s "@t"; s "Examples:"; s "| n |"; s "| 1 |"; s "@t"; s "Examples:"; s "| n |"; s "| 2 |";
  s "Scenario Outline: two <n>"; s "But d <n>"; s "Examples: more"; s "| m |"; s "| 3 |"; s "Scenario: three"; s "Then e"; s "Scenario: four"; s "Then g"].
Definition doc_in (x : str) : gdoc := match read_file (s "a.feature") x with Ok d => d | _ => mkGdoc None [] end.
Definition feat_in (x : str) : feature := match gd_feature (doc_in x) with Some f => f | _ => mkFeature [] (mkLoc 0 None) None None None [] None [] [] end.
Example C105_case : read_file (s "a.feature") c105_text = Ok (doc_in c105_text) /\ read_file (s "a.feature") c105_text' = Ok (doc_in c105_text') /\
  gd_feature (doc_in c105_text) = Some (feat_in c105_text) /\ gd_feature (doc_in c105_text') = Some (feat_in c105_text') /\
  feature_view (feat_in c105_text) = feature_view (feat_in c105_text') /\ plain_headers (doc_in c105_text) /\ length (feature_origins (feat_in c105_text)) = 5 /\ WriteSpec.plain (feat_in c105_text) <> WriteSpec.plain (feat_in c105_text') /\
  c103_tests c105_text = [(s "two 1 n = 1", [(s "Given a", 0); (s "But d 1", 0)]); (s "two 2 n = 2", [(s "Given a", 0); (s "But d 2", 0)]); (s "two <n> m = 3", [(s "Given a", 0); (s "But d <n>", 0)]); (s "three", [(s "Given a", 0); (s "Then e", 0)]); (s "four", [(s "Given a", 0); (s "Then g", 0)])] /\
  c103_tests c105_text' = c103_tests c105_text.
Proof.
  split; [vm_compute; reflexivity|]. split; [vm_compute; reflexivity|]. split; [vm_compute; reflexivity|]. split; [vm_compute; reflexivity|]. split; [vm_compute; reflexivity|]. split; [apply simple_headers; vm_compute; reflexivity|]. split; [vm_compute; reflexivity|].
  split; [vm_compute; discriminate|]. split; vm_compute; reflexivity.
Qed.
