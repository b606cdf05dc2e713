(** * What tests depend on: C61 and C62 *)
From Verif Require Import PyStr PyStrFacts Types Regex Line DialectData Matcher Ast Parser Compiler LineSpec LangSpec PickleSpec PropLine PropParse EssenceSpec EssenceFacts
  Glob Robot RobotSpec SuiteSpec RobotFacts PropRobot WriteSpec PropWrite.
Import PickleSpec WriteSpec.

(** ** C61 *)

(** C61.  Documents with the same essence have the same pickles, ids aside, or the same failure. *)
Theorem C61_pickles : forall d d' i j, essence d = essence d' ->
  match compile d i, compile d' j with
  | Ok (ps, _), Ok (ps', _) => map pickle_essence ps = map pickle_essence ps'
  | Err e, Err e' => e = e'
  | _, _ => False
  end.
Proof. intros d d' i j E. exact (compile_essence d d' E i j). Qed.
Print Assumptions C61_pickles.

(** the essence of a feature can be seen without its ids and places *)
Lemma e_tags l : names_of (map plain_tag l) = names_of l.
Proof. unfold names_of. now rewrite map_map. Qed.
Lemma e_row r : values_of (plain_row r) = values_of r.
Proof. unfold values_of. cbn. now rewrite map_map. Qed.
Lemma e_step x : step_essence (plain_step x) = step_essence x.
Proof. unfold step_essence. cbn. destruct (st_arg x) as [|t|ds]; cbn; try reflexivity. now rewrite (map_map2 _ _ values_of) by apply e_row. Qed.
Lemma e_steps l : map step_essence (map plain_step l) = map step_essence l.
Proof. apply map_map2, e_step. Qed.
Lemma e_background o : option_map background_essence (option_map plain_background o) = option_map background_essence o.
Proof. apply opt_map2. intros x. apply e_steps. Qed.
Lemma e_examples x : examples_essence (plain_examples x) = examples_essence x.
Proof. unfold examples_essence. cbn. rewrite e_tags. rewrite (opt_map2 _ _ values_of) by apply e_row. now rewrite (map_map2 _ _ values_of) by apply e_row. Qed.
Lemma e_scenario x : scenario_essence (plain_scenario x) = scenario_essence x.
Proof. unfold scenario_essence. cbn. rewrite e_tags, e_steps. now rewrite (map_map2 _ _ examples_essence) by apply e_examples. Qed.
Lemma e_scenarios l : map scenario_essence (map plain_scenario l) = map scenario_essence l.
Proof. apply map_map2, e_scenario. Qed.
Lemma e_rule x : rule_essence (plain_rule x) = rule_essence x.
Proof. unfold rule_essence. cbn. now rewrite e_tags, e_scenarios, e_background. Qed.
Lemma e_feature x : feature_essence (plain x) = feature_essence x.
Proof. unfold feature_essence. cbn. rewrite e_tags, e_scenarios, e_background. now rewrite (map_map2 _ _ rule_essence) by apply e_rule. Qed.
Lemma plain_essence d d' : option_map plain (gd_feature d) = option_map plain (gd_feature d') -> essence d = essence d'.
Proof.
  unfold essence. intros H. destruct (gd_feature d) as [f|], (gd_feature d') as [f'|]; try discriminate H; [|reflexivity]. cbn in H |- *. 
  assert (E : plain f = plain f') by congruence. now rewrite <- (e_feature f), <- (e_feature f'), E.
Qed.

(** C61.  Writing a feature anew (WriteSpec.v) does not change its pickles. *)
Theorem C61_rewritten : forall stop lang text d f i j, supported lang -> parse_with stop false lang text = Ok d -> gd_feature d = Some f ->
  exists d', parse_with stop false lang (feature_text f) = Ok d' /\
  match compile d i, compile d' j with
  | Ok (ps, _), Ok (ps', _) => map pickle_essence ps = map pickle_essence ps'
  | Err e, Err e' => e = e'
  | _, _ => False
  end.
Proof.
  intros stop lang text d f i j S P F. destruct (C54_round_trip stop lang text d f S P F) as [d' [f' [P' [F' [_ [E _]]]]]]. exists d'. split; [exact P'|].
  apply C61_pickles, plain_essence. rewrite F, F'. cbn. now rewrite E.
Qed.
Print Assumptions C61_rewritten.

(** ** C62 *)

(** a test, a suite without positions *)
Definition call_shape (c : rcall) := (rc_name c, rc_args c).
Definition test_shape (t : rtest) := (rt_name t, rt_doc t, rt_tags t, map call_shape (rt_calls t)).
Definition suite_shape (x : rsuite) := (rs_doc x, rs_library x, rs_resources x, rs_metadata_tags x, rs_test_tags x, map test_shape (rs_tests x)).

Definition plain_origin (o : origin) : origin :=
  mkOrigin (option_map plain_rule (o_rule o)) (plain_scenario (o_scenario o))
    (match o_row o with Some (ex, h, r) => Some (plain_examples ex, plain_row h, plain_row r) | None => None end).

Lemma p_examples ru sc ex : examples_origins (option_map plain_rule ru) (plain_scenario sc) (plain_examples ex) = map plain_origin (examples_origins ru sc ex).
Proof. unfold examples_origins. cbn. destruct (ex_header ex); [|reflexivity]. cbn. now rewrite !map_map. Qed.
Lemma p_scenario ru sc : scenario_origins (option_map plain_rule ru) (plain_scenario sc) = map plain_origin (scenario_origins ru sc).
Proof.
  assert (G : forall l, flat_map (examples_origins (option_map plain_rule ru) (plain_scenario sc)) (map plain_examples l) = map plain_origin (flat_map (examples_origins ru sc) l)).
  { induction l as [|e l IH]; [reflexivity|]. cbn. now rewrite p_examples, IH, map_app. }
  unfold scenario_origins. cbn [plain_scenario sc_examples]. destruct (sc_examples sc) as [|e es]; [reflexivity|]. exact (G (e :: es)).
Qed.
Lemma p_scenarios ru l : flat_map (scenario_origins (option_map plain_rule ru)) (map plain_scenario l) = map plain_origin (flat_map (scenario_origins ru) l).
Proof. induction l as [|e l IH]; [reflexivity|]. cbn. now rewrite p_scenario, IH, map_app. Qed.
Lemma p_origins f : feature_origins (plain f) = map plain_origin (feature_origins f).
Proof.
  unfold feature_origins. cbn [plain fe_scenarios fe_rules]. rewrite map_app. f_equal; [apply (p_scenarios None)|].
  induction (fe_rules f) as [|r l IH]; [reflexivity|]. cbn [map flat_map plain_rule ru_scenarios]. rewrite map_app, IH. f_equal. apply (p_scenarios (Some r)).
Qed.
Lemma p_bg o : background_steps (option_map plain_background o) = map plain_step (background_steps o).
Proof. now destruct o. Qed.
Lemma p_steps f o : origin_steps (plain f) (plain_origin o) = map plain_step (origin_steps f o).
Proof.
  unfold origin_steps, inherited_steps. cbn [plain plain_origin plain_scenario fe_background o_scenario o_rule sc_steps]. rewrite map_app. f_equal.
  destruct (sc_steps (o_scenario o)); [reflexivity|]. cbn [map]. rewrite p_bg, map_app. destruct (o_rule o); cbn; [now rewrite p_bg | reflexivity].
Qed.
Lemma p_columns o : columns (plain_origin o) = columns o.
Proof. unfold columns. cbn. destruct (o_row o) as [[[ex h] r]|]; [|reflexivity]. cbn. now rewrite !map_map. Qed.
Lemma p_lower o : map tag_name (lower_tags (plain_origin o)) = map tag_name (lower_tags o).
Proof.
  unfold lower_tags. cbn [plain_origin o_rule o_scenario o_row plain_scenario sc_tags]. rewrite !map_app. f_equal; [|f_equal].
  - destruct (o_rule o); [apply e_tags | reflexivity].
  - apply e_tags.
  - destruct (o_row o) as [[[ex h] r]|]; [apply e_tags | reflexivity].
Qed.

Lemma same_calls : forall sts qs cs sts' qs' cs', Forall3 call_of sts qs cs -> Forall3 call_of sts' qs' cs' -> forall pr, Forall2 (exact_args pr) qs cs -> Forall2 (exact_args pr) qs' cs' ->
  map st_keyword sts = map st_keyword sts' -> map (fun q => (ps_type q, ps_text q, ps_arg q)) qs = map (fun q => (ps_type q, ps_text q, ps_arg q)) qs' ->
  map call_shape cs = map call_shape cs'.
Proof.
  intros sts qs cs sts' qs' cs' F. revert sts' qs' cs'. induction F as [|st q c sts qs cs H F IH]; intros sts' qs' cs' F' pr X X' E1 E2.
  - destruct F'; [reflexivity | discriminate E1].
  - destruct F' as [|st' q' c' sts' qs' cs' H' F']; [discriminate E1|]. cbn [map] in *. inversion X as [|? ? ? ? X1 X2]; inversion X' as [|? ? ? ? X1' X2']; subst. 
    injection E1 as K E1. injection E2 as T1 T2 T3 E2. f_equal; [|eapply IH; eauto]. unfold call_shape, exact_args in *. rewrite X1, X1', T3. f_equal.
    destruct H as [[kw [Hk ->]] _], H' as [[kw' [Hk' ->]] _]. rewrite Hk, Hk' in K. injection K as ->. now rewrite T1, T2.
Qed.
Lemma cons_inj (l l' : list str) : map (cons ch_at) l = map (cons ch_at) l' -> l = l'.
Proof. revert l'. induction l as [|x l IH]; intros [|y l'] H; try discriminate H; [reflexivity|]. cbn in H. injection H as H1 H2. f_equal; auto. Qed.

Lemma same_test f f' o o' p p' t t' pr : test_of f o p t -> test_of f' o' p' t' -> Forall2 (exact_args pr) (pk_steps p) (rt_calls t) -> Forall2 (exact_args pr) (pk_steps p') (rt_calls t') ->
  plain f = plain f' -> plain_origin o = plain_origin o' -> pickle_essence p = pickle_essence p' -> test_shape t = test_shape t'.
Proof.
  intros [T1 [T2 [T3 [T4 _]]]] [U1 [U2 [U3 [U4 _]]]] X X' Ef Eo Ep. unfold test_shape. unfold pickle_essence in Ep. injection Ep as P1 _ _ P4.
  assert (N : rt_name t = rt_name t').
  { rewrite T1, U1, P1. f_equal. rewrite <- (p_columns o), <- (p_columns o'), Eo. clear - Eo. apply (f_equal o_row) in Eo. cbn in Eo.
    destruct (o_row o) as [[[ex h] r]|], (o_row o') as [[[ex' h'] r']|]; try discriminate Eo; [|reflexivity].
    assert (E : plain_examples ex = plain_examples ex') by congruence. apply (f_equal ex_keyword) in E. cbn in E. now rewrite E. }
  assert (D : rt_doc t = rt_doc t').
  { rewrite T2, U2. apply (f_equal (fun o => sc_desc (o_scenario o))) in Eo. cbn in Eo. now rewrite Eo. }
  assert (G : rt_tags t = rt_tags t').
  { apply cons_inj. unfold test_tags in *. rewrite T3, U3, <- (p_lower o), <- (p_lower o'), Eo. reflexivity. }
  assert (K : map st_keyword (origin_steps f o) = map st_keyword (origin_steps f' o')).
  { assert (Q : map plain_step (origin_steps f o) = map plain_step (origin_steps f' o')) by (rewrite <- !p_steps, Ef, Eo; reflexivity).
    apply (f_equal (map st_keyword)) in Q. rewrite !map_map in Q. exact Q. }
  rewrite N, D, G. now rewrite (same_calls _ _ _ _ _ _ T4 U4 pr X X' K P4).
Qed.
Lemma same_tests f f' pr : plain f = plain f' -> forall os ps ts os' ps' ts', Forall3 (test_of f) os ps ts -> Forall3 (test_of f') os' ps' ts' ->
  Forall2 (fun p t => Forall2 (exact_args pr) (pk_steps p) (rt_calls t)) ps ts -> Forall2 (fun p t => Forall2 (exact_args pr) (pk_steps p) (rt_calls t)) ps' ts' ->
  map plain_origin os = map plain_origin os' -> map pickle_essence ps = map pickle_essence ps' -> map test_shape ts = map test_shape ts'.
Proof.
  intros Ef os ps ts os' ps' ts' F. revert os' ps' ts'. induction F as [|o p t os ps ts H F IH]; intros os' ps' ts' F' X X' E1 E2.
  - destruct F'; [reflexivity | discriminate E1].
  - destruct F' as [|o' p' t' os' ps' ts' H' F']; [discriminate E1|]. inversion X as [|? ? ? ? X1 X2]; inversion X' as [|? ? ? ? X1' X2']; subst.
    assert (A1 : plain_origin o = plain_origin o') by (cbn [map] in E1; congruence). assert (A2 : map plain_origin os = map plain_origin os') by (cbn [map] in E1; congruence).
    assert (B1 : pickle_essence p = pickle_essence p') by (cbn [map] in E2; congruence). assert (B2 : map pickle_essence ps = map pickle_essence ps') by (cbn [map] in E2; congruence).
    cbn [map]. f_equal; [eapply same_test; eauto | eapply IH; eauto].
Qed.

(** C62.  Two files whose features say the same (ids, places and comments aside) give the same suite (positions
    aside), or the same failure; the files may have different names, and one may be Markdown. *)
Theorem C62_same_suite : forall printable name name' content content' dir d d',
  read_file name content = Ok d -> read_file name' content' = Ok d' -> option_map plain (gd_feature d) = option_map plain (gd_feature d') ->
  match build_gherkin_model printable name content dir, build_gherkin_model printable name' content' dir with
  | Ok (RSuite x, n), Ok (RSuite x', n') => suite_shape x = suite_shape x' /\ n = n'
  | Ok (RErrors l, n), Ok (RErrors l', n') => l = l' /\ n = n'
  | _, _ => False
  end.
Proof.
  intros pr name name' content content' dir d d' R R' E. pose proof (build_eq pr name content dir) as B. pose proof (build_eq pr name' content' dir) as B'.
  rewrite R in B. rewrite R' in B'. pose proof (C61_pickles d d' 0 0 (plain_essence d d' E)) as C. 
  destruct (compile d 0) as [[ps i]|e], (compile d' 0) as [[ps' i']|e']; try contradiction C; [|subst e'; now rewrite B, B'].
  assert (O : forall f f', gd_feature d = Some f -> gd_feature d' = Some f' -> plain f = plain f' -> map plain_origin (origins d) = map plain_origin (origins d')).
  { intros f f' F F' Q. unfold origins. now rewrite F, F', <- !p_origins, Q. }
  destruct (gd_feature d) as [f|] eqn:F, (gd_feature d') as [f'|] eqn:F'; try discriminate E; [|now rewrite B, B'].
  destruct B as [su [-> [S1 [S2 S3]]]], B' as [su' [-> [S1' [S2' S3']]]]. assert (Q : plain f = plain f') by (cbn in E; congruence). specialize (O f f' eq_refl eq_refl Q).
  pose proof (same_tests f f' pr Q _ _ _ _ _ _ S2 S2' S3 S3' O C) as T. destruct S1 as [A1 [A2 [A3 [A4 A5]]]], S1' as [A1' [A2' [A3' [A4' A5']]]].
  assert (D : fe_desc f = fe_desc f') by exact (f_equal fe_desc Q). assert (Nm : fe_name f = fe_name f') by exact (f_equal fe_name Q).
  assert (Tg : map tag_name (fe_tags f) = map tag_name (fe_tags f')) by (pose proof (f_equal (fun x => names_of (fe_tags x)) Q) as G; cbn in G; rewrite !e_tags in G; exact G).
  split; [|exact Nm]. unfold suite_shape. rewrite A1, A1', D, A2, A2', T. rewrite A3 in A3'. injection A3' as ->.
  assert (TT : rs_test_tags su = rs_test_tags su') by (apply cons_inj; now rewrite A4, A4').
  rewrite A5, A5', TT. destruct (fe_tags f), (fe_tags f'); try discriminate Tg; reflexivity.
Qed.
Print Assumptions C62_same_suite.

(** C62.  In particular a classic feature file may be written anew. *)
Theorem C62_rewritten : forall printable name content dir x n, is_markdown name = false -> build_gherkin_model printable name content dir = Ok (RSuite x, n) ->
  exists d f x', read_file name content = Ok d /\ gd_feature d = Some f /\ build_gherkin_model printable name (feature_text f) dir = Ok (RSuite x', n) /\ suite_shape x' = suite_shape x.
Proof.
  intros pr name content dir x n M H. destruct (C30_tests_and_calls _ _ _ _ _ _ H) as [d [f [ps [id' [E [F _]]]]]]. pose proof E as P. unfold read_file in P. rewrite M in P.
  destruct (C54_round_trip false (s "en") content d f en_supported P F) as [d' [f' [P' [F' [_ [Q _]]]]]].
  assert (E' : read_file name (feature_text f) = Ok d') by (unfold read_file; now rewrite M).
  assert (G : option_map plain (gd_feature d) = option_map plain (gd_feature d')) by (rewrite F, F'; cbn; now rewrite Q).
  pose proof (C62_same_suite pr name name content (feature_text f) dir d d' E E' G) as S. rewrite H in S.
  destruct (build_gherkin_model pr name (feature_text f) dir) as [[[x'|] n']|] eqn:W; try contradiction S. destruct S as [S1 ->]. exists d, f, x'. split; [exact E|]. split; [exact F|]. split; [exact W | now symmetry].
Qed.
Print Assumptions C62_rewritten.

(* a file and the same feature written differently: other line ends, indentation, comments, a table with other padding, a doc string
   with the other separator is another document, so it keeps its separator *)
Definition c62_a : str := text_of_lines [s "@t"; s "Feature: f"; s "  what"; s ""; s "  Scenario: s <x>"; s "    Given a <x>"; s "      | 1 |2|"; s "    And b"; s "  @u"; s "  Examples:"; s "    | x |"; s "    | 7 |"].
Definition c62_b : str := flat_map (fun l => l ++ [ch_cr; ch_nl])
  [s "# language: en"; s "@t # tag"; s "Feature:   f  "; s "  what"; s "# comment"; s "Scenario: s <x>"; s "Given a <x>"; s "|1|   2|"; s "# more"; s "And b"; s ""; s "@u"; s "Examples:"; s "|x|"; s "|7|"].
Example C62_case : exists d d' x n, read_file (s "a.feature") c62_a = Ok d /\ read_file (s "b.feature") c62_b = Ok d' /\ option_map plain (gd_feature d) = option_map plain (gd_feature d') /\
  build_gherkin_model (fun _ => true) (s "a.feature") c62_a None = Ok (RSuite x, n) /\ map rt_name (rs_tests x) = [s "s 7 x = 7"].
Proof. do 4 eexists. split; [vm_compute; reflexivity|]. split; [vm_compute; reflexivity|]. split; [vm_compute; reflexivity|]. split; vm_compute; reflexivity. Qed.
(* a classic and a Markdown file *)
Definition c62_md : str := text_of_lines [s "`@t`"; s "# Feature: f"; s ""; s "## Scenario: s"; s "* Given a"; s "  | 1 |2|"; s "* And b"].
Definition c62_cl : str := text_of_lines [s "@t"; s "Feature: f"; s "Scenario: s"; s "  Given a"; s "  | 1 |2|"; s "  And b"].
Example C62_case_markdown : exists d d' x n, read_file (s "a.feature") c62_cl = Ok d /\ read_file (s "a.feature.md") c62_md = Ok d' /\ option_map plain (gd_feature d) = option_map plain (gd_feature d') /\
  build_gherkin_model (fun _ => true) (s "a.feature.md") c62_md None = Ok (RSuite x, n) /\ map rt_name (rs_tests x) = [s "s"].
Proof. do 4 eexists. split; [vm_compute; reflexivity|]. split; [vm_compute; reflexivity|]. split; [vm_compute; reflexivity|]. split; vm_compute; reflexivity. Qed.
(* the essence is shared although names of the feature and the examples, keywords and descriptions differ *)
Example C61_case : exists d d' ps i, 
  parse_with false false (s "en") (text_of_lines [s "Feature: f"; s "Scenario: s"; s "  text"; s "Given <x>"; s "Examples: e"; s "|x|"; s "|1|"]) = Ok d /\
  parse_with false false (s "en") (text_of_lines [s "Feature: g"; s "Scenario Outline: s"; s "Given   <x>"; s "Scenarios:"; s "  more"; s "| x | # no cell"; s "#"; s "|1|"]) = Ok d' /\
  essence d = essence d' /\ compile d 5 = Ok (ps, i) /\ length ps = 1.
Proof. do 4 eexists. split; [vm_compute; reflexivity|]. split; [vm_compute; reflexivity|]. split; [vm_compute; reflexivity|]. split; vm_compute; reflexivity. Qed.
