(** * Suites depend on nothing else, not even in their positions: C90 *)
From Verif Require Import PyStr PyStrFacts Types Regex Line DialectData Matcher Ast Parser Compiler LineSpec LangSpec DocSpec PartsSpec PickleSpec PropLine PropParse EssenceSpec EssenceFacts
  Glob Robot RobotSpec SuiteSpec RobotFacts PropRobot WriteSpec PropWrite PropEssence ExampleSpec PartSpec TitleSpec.
Import PickleSpec WriteSpec.

Lemma k_tags l : names_of (map kept_tag l) = names_of l.
Proof. unfold names_of. now rewrite map_map. Qed.
Lemma k_row r : values_of (kept_row r) = values_of r.
Proof. unfold values_of. cbn. now rewrite map_map. Qed.
Lemma k_step x : step_essence (kept_step x) = step_essence x.
Proof. unfold step_essence. cbn. destruct (st_arg x) as [|t|ds]; cbn; try reflexivity. now rewrite (map_map2 _ _ values_of) by apply k_row. Qed.
Lemma k_steps l : map step_essence (map kept_step l) = map step_essence l.
Proof. apply map_map2, k_step. Qed.
Lemma k_background o : option_map background_essence (option_map kept_background o) = option_map background_essence o.
Proof. apply opt_map2. intros x. apply k_steps. Qed.
Lemma k_examples x : examples_essence (kept_examples x) = examples_essence x.
Proof. unfold examples_essence. cbn. rewrite k_tags. rewrite (opt_map2 _ _ values_of) by apply k_row. now rewrite (map_map2 _ _ values_of) by apply k_row. Qed.
Lemma k_scenario x : scenario_essence (kept_scenario x) = scenario_essence x.
Proof. unfold scenario_essence. cbn. rewrite k_tags, k_steps. now rewrite (map_map2 _ _ examples_essence) by apply k_examples. Qed.
Lemma k_scenarios l : map scenario_essence (map kept_scenario l) = map scenario_essence l.
Proof. apply map_map2, k_scenario. Qed.
Lemma k_rule x : rule_essence (kept_rule x) = rule_essence x.
Proof. unfold rule_essence. cbn. now rewrite k_tags, k_scenarios, k_background. Qed.
Lemma k_feature x : feature_essence (kept x) = feature_essence x.
Proof. unfold feature_essence. cbn. rewrite k_tags, k_scenarios, k_background. now rewrite (map_map2 _ _ rule_essence) by apply k_rule. Qed.
Lemma kept_essence d d' : option_map kept (gd_feature d) = option_map kept (gd_feature d') -> essence d = essence d'.
Proof.
  unfold essence. intros H. destruct (gd_feature d) as [f|], (gd_feature d') as [f'|]; try discriminate H; [|reflexivity]. cbn in H |- *. assert (E : kept f = kept f') by congruence. now rewrite <- (k_feature f), <- (k_feature f'), E.
Qed.
Definition kept_origin (o : origin) : origin :=
  mkOrigin (option_map kept_rule (o_rule o)) (kept_scenario (o_scenario o))
    (match o_row o with Some (ex, h, r) => Some (kept_examples ex, kept_row h, kept_row r) | None => None end).
Lemma ko_examples ru sc ex : examples_origins (option_map kept_rule ru) (kept_scenario sc) (kept_examples ex) = map kept_origin (examples_origins ru sc ex).
Proof. unfold examples_origins. cbn. destruct (ex_header ex); [|reflexivity]. cbn. now rewrite !map_map. Qed.
Lemma ko_scenario ru sc : scenario_origins (option_map kept_rule ru) (kept_scenario sc) = map kept_origin (scenario_origins ru sc).
Proof.
  assert (G : forall l, flat_map (examples_origins (option_map kept_rule ru) (kept_scenario sc)) (map kept_examples l) = map kept_origin (flat_map (examples_origins ru sc) l)).
  { induction l as [|e l IH]; [reflexivity|]. cbn. now rewrite ko_examples, IH, map_app. }
  unfold scenario_origins. cbn [kept_scenario sc_examples]. destruct (sc_examples sc) as [|e es]; [reflexivity|]. exact (G (e :: es)).
Qed.
Lemma ko_scenarios ru l : flat_map (scenario_origins (option_map kept_rule ru)) (map kept_scenario l) = map kept_origin (flat_map (scenario_origins ru) l).
Proof. induction l as [|e l IH]; [reflexivity|]. cbn. now rewrite ko_scenario, IH, map_app. Qed.
Lemma ko_origins f : feature_origins (kept f) = map kept_origin (feature_origins f).
Proof.
  unfold feature_origins. cbn [kept fe_scenarios fe_rules]. rewrite map_app. f_equal; [apply (ko_scenarios None)|].
  induction (fe_rules f) as [|r l IH]; [reflexivity|]. cbn [map flat_map kept_rule ru_scenarios]. rewrite map_app, IH. f_equal. apply (ko_scenarios (Some r)).
Qed.
Lemma k_bg o : background_steps (option_map kept_background o) = map kept_step (background_steps o).
Proof. now destruct o. Qed.
Lemma ko_steps f o : origin_steps (kept f) (kept_origin o) = map kept_step (origin_steps f o).
Proof.
  unfold origin_steps, inherited_steps. cbn [kept kept_origin kept_scenario fe_background o_scenario o_rule sc_steps]. rewrite map_app. f_equal.
  destruct (sc_steps (o_scenario o)); [reflexivity|]. cbn [map]. rewrite k_bg, map_app. destruct (o_rule o); cbn; [now rewrite k_bg | reflexivity].
Qed.
Lemma ko_columns o : columns (kept_origin o) = columns o.
Proof. unfold columns. cbn. destruct (o_row o) as [[[ex h] r]|]; [|reflexivity]. cbn. now rewrite !map_map. Qed.
Lemma ko_lower o : map tag_name (lower_tags (kept_origin o)) = map tag_name (lower_tags o).
Proof.
  unfold lower_tags. cbn [kept_origin o_rule o_scenario o_row kept_scenario sc_tags]. rewrite !map_app. f_equal; [|f_equal].
  - destruct (o_rule o); [apply k_tags | reflexivity].
  - apply k_tags.
  - destruct (o_row o) as [[[ex h] r]|]; [apply k_tags | reflexivity].
Qed.
Lemma equal_calls : forall sts qs cs sts' qs' cs', Forall3 call_of sts qs cs -> Forall3 call_of sts' qs' cs' -> forall pr, Forall2 (exact_args pr) qs cs -> Forall2 (exact_args pr) qs' cs' ->
  map kept_step sts = map kept_step sts' -> map (fun q => (ps_type q, ps_text q, ps_arg q)) qs = map (fun q => (ps_type q, ps_text q, ps_arg q)) qs' -> cs = cs'.
Proof.
  intros sts qs cs sts' qs' cs' F. revert sts' qs' cs'. induction F as [|st q c sts qs cs H F IH]; intros sts' qs' cs' F' pr X X' E1 E2.
  - destruct F'; [reflexivity | discriminate E1].
  - destruct F' as [|st' q' c' sts' qs' cs' H' F']; [discriminate E1|]. cbn [map] in E1, E2. inversion X as [|? ? ? ? X1 X2]; inversion X' as [|? ? ? ? X1' X2']; subst.
    assert (K : kept_step st = kept_step st') by congruence. assert (Ks : map kept_step sts = map kept_step sts') by congruence. injection E2 as T1 T2 T3 E2. f_equal; [|eapply IH; eauto].
    pose proof (f_equal st_loc K) as K1. pose proof (f_equal st_keyword K) as K2. cbn [kept_step st_loc st_keyword] in K1, K2. unfold exact_args in *.
    destruct H as [[kw [Hk Hn]] [_ [Hl [col [Hc Hc']]]]], H' as [[kw' [Hk' Hn']] [_ [Hl' [col' [Jc Jc']]]]]. assert (kw' = kw) by congruence. assert (col' = col) by congruence. subst kw' col'.
    destruct c as [a1 a2 a3 a4], c' as [b1 b2 b3 b4]. cbn [rc_name rc_args rc_line rc_col] in *. f_equal; [now rewrite Hn, Hn', T1, T2 | congruence | congruence | congruence].
Qed.
Lemma equal_test f f' o o' p p' t t' pr : test_of f o p t -> test_of f' o' p' t' -> Forall2 (exact_args pr) (pk_steps p) (rt_calls t) -> Forall2 (exact_args pr) (pk_steps p') (rt_calls t') ->
  kept f = kept f' -> kept_origin o = kept_origin o' -> pickle_essence p = pickle_essence p' -> t = t'.
Proof.
  intros [T1 [T2 [T3 [T4 [T5 [co [T6 T7]]]]]]] [U1 [U2 [U3 [U4 [U5 [co' [U6 U7]]]]]]] X X' Ef Eo Ep. unfold pickle_essence in Ep. injection Ep as P1 _ _ P4.
  assert (N : rt_name t = rt_name t').
  { rewrite T1, U1, P1. f_equal. rewrite <- (ko_columns o), <- (ko_columns o'), Eo. clear - Eo. apply (f_equal o_row) in Eo. cbn in Eo.
    destruct (o_row o) as [[[ex h] r]|], (o_row o') as [[[ex' h'] r']|]; try discriminate Eo; [|reflexivity].
    assert (E : kept_examples ex = kept_examples ex') by congruence. apply (f_equal ex_keyword) in E. cbn in E. now rewrite E. }
  assert (D : rt_doc t = rt_doc t').
  { rewrite T2, U2. apply (f_equal (fun o => sc_desc (o_scenario o))) in Eo. cbn in Eo. now rewrite Eo. }
  assert (G : rt_tags t = rt_tags t').
  { apply cons_inj. unfold test_tags in *. rewrite T3, U3, <- (ko_lower o), <- (ko_lower o'), Eo. reflexivity. }
  assert (Q : map kept_step (origin_steps f o) = map kept_step (origin_steps f' o')) by (rewrite <- !ko_steps, Ef, Eo; reflexivity).
  pose proof (equal_calls _ _ _ _ _ _ T4 U4 pr X X' Q P4) as C. pose proof (f_equal (fun o => sc_loc (o_scenario o)) Eo) as L. cbn [kept_origin o_scenario kept_scenario sc_loc] in L.
  assert (co' = co) by congruence. subst co'. destruct t as [a1 a2 a3 a4 a5 a6], t' as [b1 b2 b3 b4 b5 b6]. cbn [rt_name rt_doc rt_tags rt_calls rt_line rt_col] in *. f_equal; congruence.
Qed.
Lemma equal_tests f f' pr : kept f = kept f' -> forall os ps ts os' ps' ts', Forall3 (test_of f) os ps ts -> Forall3 (test_of f') os' ps' ts' ->
  Forall2 (fun p t => Forall2 (exact_args pr) (pk_steps p) (rt_calls t)) ps ts -> Forall2 (fun p t => Forall2 (exact_args pr) (pk_steps p) (rt_calls t)) ps' ts' ->
  map kept_origin os = map kept_origin os' -> map pickle_essence ps = map pickle_essence ps' -> ts = ts'.
Proof.
  intros Ef os ps ts os' ps' ts' F. revert os' ps' ts'. induction F as [|o p t os ps ts H F IH]; intros os' ps' ts' F' X X' E1 E2.
  - destruct F'; [reflexivity | discriminate E1].
  - destruct F' as [|o' p' t' os' ps' ts' H' F']; [discriminate E1|]. inversion X as [|? ? ? ? X1 X2]; inversion X' as [|? ? ? ? X1' X2']; subst.
    assert (A1 : kept_origin o = kept_origin o') by (cbn [map] in E1; congruence). assert (A2 : map kept_origin os = map kept_origin os') by (cbn [map] in E1; congruence).
    assert (B1 : pickle_essence p = pickle_essence p') by (cbn [map] in E2; congruence). assert (B2 : map pickle_essence ps = map pickle_essence ps') by (cbn [map] in E2; congruence).
    f_equal; [eapply equal_test; eauto | eapply IH; eauto].
Qed.

(** C90.  Two files (classic or Markdown) whose features differ at most in what [kept] leaves out give the same result: the same suite, down to the lines and
    columns of its tests and calls, or the same failure.  The name that is returned beside a suite is the title of the feature. *)
Theorem C90_same_suite : forall printable name name' content content' dir d d',
  read_file name content = Ok d -> read_file name' content' = Ok d' -> option_map kept (gd_feature d) = option_map kept (gd_feature d') ->
  match build_gherkin_model printable name content dir, build_gherkin_model printable name' content' dir with
  | Ok (RSuite x, n), Ok (RSuite x', n') => x = x' /\ (exists f f', gd_feature d = Some f /\ gd_feature d' = Some f' /\ n = fe_name f /\ n' = fe_name f')
  | Ok (RErrors l, n), Ok (RErrors l', n') => l = l' /\ n = n'
  | _, _ => False
  end.
Proof.
  intros pr name name' content content' dir d d' R R' E. pose proof (build_eq pr name content dir) as B. pose proof (build_eq pr name' content' dir) as B'.
  rewrite R in B. rewrite R' in B'. pose proof (C61_pickles d d' 0 0 (kept_essence d d' E)) as C.
  destruct (compile d 0) as [[ps i]|e], (compile d' 0) as [[ps' i']|e']; try contradiction C; [|subst e'; now rewrite B, B'].
  assert (O : forall f f', gd_feature d = Some f -> gd_feature d' = Some f' -> kept f = kept f' -> map kept_origin (origins d) = map kept_origin (origins d')).
  { intros f f' F F' Q. unfold origins. now rewrite F, F', <- !ko_origins, Q. }
  destruct (gd_feature d) as [f|] eqn:F, (gd_feature d') as [f'|] eqn:F'; try discriminate E; [|now rewrite B, B'].
  destruct B as [su [-> [S1 [S2 S3]]]], B' as [su' [-> [S1' [S2' S3']]]]. assert (Q : kept f = kept f') by (cbn in E; congruence). specialize (O f f' eq_refl eq_refl Q).
  pose proof (equal_tests f f' pr Q _ _ _ _ _ _ S2 S2' S3 S3' O C) as T. destruct S1 as [A1 [A2 [A3 [A4 A5]]]], S1' as [A1' [A2' [A3' [A4' A5']]]].
  assert (D : fe_desc f = fe_desc f') by exact (f_equal fe_desc Q).
  assert (Tg : map tag_name (fe_tags f) = map tag_name (fe_tags f')) by (pose proof (f_equal (fun x => names_of (fe_tags x)) Q) as G; cbn in G; rewrite !k_tags in G; exact G).
  split; [|exists f, f'; auto].
  assert (TT : rs_test_tags su = rs_test_tags su') by (apply cons_inj; now rewrite A4, A4').
  destruct su as [b1 b2 b3 b4 b5 b6], su' as [e1 e2 e3 e4 e5 e6]. cbn [rs_doc rs_library rs_resources rs_metadata_tags rs_test_tags rs_tests] in *. 
  assert (M : b4 = e4) by (rewrite A5, A5', TT; destruct (fe_tags f), (fe_tags f'); try discriminate Tg; reflexivity). rewrite D in A1. congruence.
Qed.
Print Assumptions C90_same_suite.
