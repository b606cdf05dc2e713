(** * A Markdown feature file and the classic one it stands for give the same Robot suite: C70 *)
From Verif Require Import PyStr PyStrFacts Types Regex Line DialectData Matcher Ast Parser Compiler LineSpec LangSpec MdSpec PickleSpec PropLine PropParse EssenceSpec EssenceFacts
  Glob Robot RobotSpec SuiteSpec RobotFacts PropRobot WriteSpec PropWrite PropEssence.
Import WriteSpec.
From Verif Require TransSpec PropTranslate.

(** ** Specification *)
(** all but the columns *)
Definition call_on_line (c : rcall) := (rc_name c, rc_args c, rc_line c).
Definition test_on_line (t : rtest) := (rt_name t, rt_doc t, rt_tags t, map call_on_line (rt_calls t), rt_line t).
Definition suite_on_lines (x : rsuite) := (rs_doc x, rs_library x, rs_resources x, rs_metadata_tags x, rs_test_tags x, map test_on_line (rs_tests x)).

Definition background_steps (o : option background) : list step := match o with Some b => bg_steps b | None => [] end.
Definition all_steps (f : feature) : list step :=
  background_steps (fe_background f) ++ flat_map sc_steps (fe_scenarios f) ++
  flat_map (fun r => background_steps (ru_background r) ++ flat_map sc_steps (ru_scenarios r)) (fe_rules f).
(** a step that begins with a word, not with a star *)
Definition worded (x : step) : Prop := In (st_keyword x) (map Some [s "Given "; s "When "; s "Then "; s "And "; s "But "]).
Definition worded_document (g : gdoc) : Prop := match gd_feature g with Some f => Forall worded (all_steps f) | None => True end.
Definition en : dialect := PropTranslate.en.

(** ** Forgetting ids and places *)
Lemma f_tag x : plain_tag (TransSpec.plain_tag x) = plain_tag x. Proof. reflexivity. Qed.
Lemma f_row x : plain_row (TransSpec.plain_row x) = plain_row x.
Proof. unfold plain_row. cbn. now rewrite map_map. Qed.
Lemma f_step x : worded x -> plain_step (TransSpec.plain_step en x) = plain_step x.
Proof.
  intros W. unfold plain_step. cbn. f_equal.
  - unfold TransSpec.plain_type. unfold worded in W. cbn [map In] in W. destruct W as [<-|[<-|[<-|[<-|[<-|[]]]]]]; reflexivity.
  - destruct (st_arg x) as [|t|ds]; cbn; try reflexivity. now rewrite (map_map2 _ _ plain_row) by apply f_row.
Qed.
Lemma f_steps l : Forall worded l -> map plain_step (map (TransSpec.plain_step en) l) = map plain_step l.
Proof. rewrite map_map. intros F. apply map_ext_Forall. eapply Forall_impl; [|exact F]. intros x. apply f_step. Qed.
Lemma f_tags l : map plain_tag (map TransSpec.plain_tag l) = map plain_tag l.
Proof. now rewrite map_map. Qed.
Lemma f_background o : Forall worded (background_steps o) -> option_map plain_background (option_map (TransSpec.plain_background en) o) = option_map plain_background o.
Proof. destruct o as [b|]; [|reflexivity]. cbn. intros F. unfold plain_background. cbn. now rewrite f_steps. Qed.
Lemma f_examples x : plain_examples (TransSpec.plain_examples x) = plain_examples x.
Proof. unfold plain_examples. cbn. rewrite f_tags. f_equal; [|apply map_map2, f_row]. now rewrite (opt_map2 _ _ plain_row) by apply f_row. Qed.
Lemma f_scenarios l : Forall worded (flat_map sc_steps l) -> map plain_scenario (map (TransSpec.plain_scenario en) l) = map plain_scenario l.
Proof.
  induction l as [|x l IH]; [reflexivity|]. cbn [map flat_map]. intros F. apply Forall_app in F as [F1 F2]. rewrite IH by exact F2. f_equal. unfold plain_scenario. cbn. rewrite f_tags, f_steps by exact F1.
  now rewrite (map_map2 _ _ plain_examples) by apply f_examples.
Qed.
Lemma f_feature f : Forall worded (all_steps f) -> plain (TransSpec.plain_feature en f) = plain f.
Proof.
  unfold all_steps. intros F. apply Forall_app in F as [F1 F]. apply Forall_app in F as [F2 F3]. unfold plain. cbn. rewrite f_tags, f_background, f_scenarios by assumption. f_equal.
  induction (fe_rules f) as [|r l IH]; [reflexivity|]. cbn in F3 |- *. apply Forall_app in F3 as [F3 F4]. apply Forall_app in F3 as [F3 F5]. rewrite IH by exact F4. f_equal.
  unfold plain_rule. cbn. now rewrite f_tags, f_background, f_scenarios.
Qed.

(** the steps, and what is said of them, can be seen in the plain document *)
Lemma k_bg o : background_steps (option_map (TransSpec.plain_background en) o) = map (TransSpec.plain_step en) (background_steps o).
Proof. now destruct o. Qed.
Lemma k_scs l : flat_map sc_steps (map (TransSpec.plain_scenario en) l) = map (TransSpec.plain_step en) (flat_map sc_steps l).
Proof. induction l as [|x l IH]; [reflexivity|]. cbn [map flat_map]. now rewrite IH, map_app. Qed.
Lemma k_steps f : all_steps (TransSpec.plain_feature en f) = map (TransSpec.plain_step en) (all_steps f).
Proof.
  unfold all_steps. cbn. rewrite k_bg, k_scs, !map_app. do 2 f_equal. induction (fe_rules f) as [|r l IH]; [reflexivity|]. cbn. now rewrite IH, k_bg, k_scs, !map_app.
Qed.
Lemma worded_same f f' : TransSpec.plain_feature en f = TransSpec.plain_feature en f' -> Forall worded (all_steps f) -> Forall worded (all_steps f').
Proof.
  intros E F. assert (K : map st_keyword (all_steps f) = map st_keyword (all_steps f')).
  { pose proof (f_equal (fun x => map st_keyword (all_steps x)) E) as K. cbv beta in K. rewrite !k_steps, !map_map in K. exact K. }
  set (P := fun k => In k (map Some [s "Given "; s "When "; s "Then "; s "And "; s "But "])).
  apply (Forall_map st_keyword P). rewrite <- K. now apply (Forall_map st_keyword P).
Qed.

(** ** Origins *)
Definition plain_origin (o : origin) : origin :=
  mkOrigin (option_map (TransSpec.plain_rule en) (o_rule o)) (TransSpec.plain_scenario en (o_scenario o))
    (match o_row o with Some (ex, h, r) => Some (TransSpec.plain_examples ex, TransSpec.plain_row h, TransSpec.plain_row r) | None => None end).
Lemma o_examples ru sc ex : examples_origins (option_map (TransSpec.plain_rule en) ru) (TransSpec.plain_scenario en sc) (TransSpec.plain_examples ex) = map plain_origin (examples_origins ru sc ex).
Proof. unfold examples_origins. cbn. destruct (ex_header ex); [|reflexivity]. cbn. now rewrite !map_map. Qed.
Lemma o_scenario_ ru sc : scenario_origins (option_map (TransSpec.plain_rule en) ru) (TransSpec.plain_scenario en sc) = map plain_origin (scenario_origins ru sc).
Proof.
  assert (G : forall l, flat_map (examples_origins (option_map (TransSpec.plain_rule en) ru) (TransSpec.plain_scenario en sc)) (map TransSpec.plain_examples l) = map plain_origin (flat_map (examples_origins ru sc) l)).
  { induction l as [|e l IH]; [reflexivity|]. cbn [map flat_map]. now rewrite o_examples, IH, map_app. }
  unfold scenario_origins. cbn [TransSpec.plain_scenario sc_examples]. destruct (sc_examples sc) as [|e es]; [reflexivity|]. exact (G (e :: es)).
Qed.
Lemma o_scenarios ru l : flat_map (scenario_origins (option_map (TransSpec.plain_rule en) ru)) (map (TransSpec.plain_scenario en) l) = map plain_origin (flat_map (scenario_origins ru) l).
Proof. induction l as [|e l IH]; [reflexivity|]. cbn [map flat_map]. now rewrite o_scenario_, IH, map_app. Qed.
Lemma o_origins f : feature_origins (TransSpec.plain_feature en f) = map plain_origin (feature_origins f).
Proof.
  unfold feature_origins. cbn [TransSpec.plain_feature fe_scenarios fe_rules]. rewrite map_app. f_equal; [apply (o_scenarios None)|].
  induction (fe_rules f) as [|r l IH]; [reflexivity|]. cbn [map flat_map TransSpec.plain_rule ru_scenarios]. rewrite map_app, IH. f_equal. apply (o_scenarios (Some r)).
Qed.
Lemma o_steps f o : origin_steps (TransSpec.plain_feature en f) (plain_origin o) = map (TransSpec.plain_step en) (origin_steps f o).
Proof.
  unfold origin_steps, inherited_steps. cbn [TransSpec.plain_feature plain_origin TransSpec.plain_scenario fe_background o_scenario o_rule sc_steps]. rewrite map_app. f_equal.
  destruct (sc_steps (o_scenario o)); [reflexivity|]. cbn [map]. rewrite map_app. f_equal; [apply k_bg|]. destruct (o_rule o); [apply k_bg | reflexivity].
Qed.

(** ** Lines *)
Lemma same_lines : forall sts qs cs sts' qs' cs', Forall3 call_of sts qs cs -> Forall3 call_of sts' qs' cs' -> map (fun x => l_line (st_loc x)) sts = map (fun x => l_line (st_loc x)) sts' ->
  map rc_line cs = map rc_line cs'.
Proof.
  intros sts qs cs sts' qs' cs' F. revert sts' qs' cs'. induction F as [|st q c sts qs cs H F IH]; intros sts' qs' cs' F' E.
  - destruct F'; [reflexivity | discriminate E].
  - destruct F' as [|st' q' c' sts' qs' cs' H' F']; [discriminate E|]. cbn [map] in *. injection E as E1 E2. destruct H as [_ [_ [-> _]]], H' as [_ [_ [-> _]]]. f_equal; [exact E1 | eapply IH; eauto].
Qed.
Lemma lines_of_tests f f' : TransSpec.plain_feature en f = TransSpec.plain_feature en f' -> forall os ps ts os' ps' ts', Forall3 (test_of f) os ps ts -> Forall3 (test_of f') os' ps' ts' ->
  map plain_origin os = map plain_origin os' -> map (fun t => (rt_line t, map rc_line (rt_calls t))) ts = map (fun t => (rt_line t, map rc_line (rt_calls t))) ts'.
Proof.
  intros Ef os ps ts os' ps' ts' F. revert os' ps' ts'. induction F as [|o p t os ps ts H F IH]; intros os' ps' ts' F' E.
  - destruct F'; [reflexivity | discriminate E].
  - destruct F' as [|o' p' t' os' ps' ts' H' F']; [discriminate E|].
    assert (A1 : plain_origin o = plain_origin o') by (cbn [map] in E; congruence). assert (A2 : map plain_origin os = map plain_origin os') by (cbn [map] in E; congruence).
    cbn [map]. rewrite (IH _ _ _ F' A2). f_equal. destruct H as [_ [_ [_ [C [-> _]]]]], H' as [_ [_ [_ [C' [-> _]]]]]. f_equal.
    + exact (f_equal (fun o => l_line (sc_loc (o_scenario o))) A1).
    + eapply same_lines; [exact C | exact C' |]. assert (Q : map (TransSpec.plain_step en) (origin_steps f o) = map (TransSpec.plain_step en) (origin_steps f' o')) by (rewrite <- !o_steps, Ef, A1; reflexivity).
      apply (f_equal (map (fun x => l_line (st_loc x)))) in Q. rewrite !map_map in Q. exact Q.
Qed.
Lemma both_calls cs cs' : map call_shape cs = map call_shape cs' -> map rc_line cs = map rc_line cs' -> map call_on_line cs = map call_on_line cs'.
Proof.
  revert cs'. induction cs as [|c cs IH]; intros [|c' cs'] A B; try discriminate A; [reflexivity|]. cbn [map] in *. injection A as A1 A2 A3. injection B as B1 B2. 
  f_equal; [|now apply IH]. unfold call_on_line. congruence.
Qed.
Lemma both_tests ts ts' : map test_shape ts = map test_shape ts' -> map (fun t => (rt_line t, map rc_line (rt_calls t))) ts = map (fun t => (rt_line t, map rc_line (rt_calls t))) ts' ->
  map test_on_line ts = map test_on_line ts'.
Proof.
  revert ts'. induction ts as [|t ts IH]; intros [|t' ts'] A B; try discriminate A; [reflexivity|]. cbn [map] in *.
  assert (A1 : test_shape t = test_shape t') by congruence. assert (A2 : map test_shape ts = map test_shape ts') by congruence. injection B as B1 B2 B3.
  f_equal; [|now apply IH]. unfold test_shape in A1. injection A1 as C1 C2 C3 C4. unfold test_on_line. rewrite (both_calls _ _ C4 B2). congruence.
Qed.

(** C70.  When a Markdown file is the translation of a classic file, line by line (TransSpec.v), and no step begins with a star, both give
    the same suite - the same tests and calls, with names, tags, documentation, arguments and lines; columns aside - or neither gives a suite. *)
Theorem C70_same_suite : forall printable name name' content content' dir,
  is_markdown name = true -> is_markdown name' = false -> TransSpec.translation en TransSpec.Start (split_lines content) (split_lines content') ->
  (forall g, read_file name' content' = Ok g -> worded_document g) ->
  match build_gherkin_model printable name content dir, build_gherkin_model printable name' content' dir with
  | Ok (RSuite x, n), Ok (RSuite x', n') => suite_on_lines x = suite_on_lines x' /\ n = n'
  | Ok (RSuite _, _), _ | _, Ok (RSuite _, _) => False
  | _, _ => True
  end.
Proof.
  intros pr name name' content content' dir M M' Tr W. assert (Hd : for_name (s "en") = Some en) by (vm_compute; reflexivity).
  pose proof (PropTranslate.C68_translation false (s "en") en content content' Hd Tr) as C. 
  assert (R : read_file name content = parse_with false true (s "en") content) by (unfold read_file; now rewrite M).
  assert (R' : read_file name' content' = parse_with false false (s "en") content') by (unfold read_file; now rewrite M'). rewrite <- R, <- R' in C.
  destruct (read_file name content) as [d|e] eqn:E, (read_file name' content') as [d'|e'] eqn:E'; try contradiction C.
  - specialize (W d' eq_refl). pose proof (f_equal gd_feature C) as Cf. cbn [gd_feature TransSpec.plain_document] in Cf.
    assert (P : option_map plain (gd_feature d) = option_map plain (gd_feature d')).
    { unfold worded_document in W. destruct (gd_feature d) as [f|], (gd_feature d') as [f'|]; try discriminate Cf; [|reflexivity]. cbn [option_map] in Cf |- *. assert (Q : TransSpec.plain_feature en f = TransSpec.plain_feature en f') by congruence.
      rewrite <- (f_feature f'), <- (f_feature f), Q; [reflexivity | apply (worded_same f'); [now symmetry | exact W] | exact W]. }
    pose proof (C62_same_suite pr name name' content content' dir d d' E E' P) as S. pose proof (build_eq pr name content dir) as B. pose proof (build_eq pr name' content' dir) as B'. rewrite E in B. rewrite E' in B'.
    destruct (build_gherkin_model pr name content dir) as [[[x|l] n]|] eqn:G, (build_gherkin_model pr name' content' dir) as [[[x'|l'] n']|] eqn:G'; try contradiction S; auto. destruct S as [S ->]. split; [|reflexivity].
    destruct (compile d 0) as [[ps i]|]; [|discriminate B]. destruct (compile d' 0) as [[ps' i']|]; [|discriminate B'].
    destruct (gd_feature d) as [f|] eqn:F; [|discriminate B]. destruct (gd_feature d') as [f'|] eqn:F'; [|discriminate B']. cbn [option_map] in Cf. assert (Q : TransSpec.plain_feature en f = TransSpec.plain_feature en f') by congruence.
    destruct B as [su [B1 [_ [B2 _]]]], B' as [su' [B1' [_ [B2' _]]]]. injection B1 as <- _. injection B1' as <- _.
    unfold suite_shape in S. injection S as S1 S2 S3 S4 S5 S6. unfold suite_on_lines. 
    assert (O : map plain_origin (origins d) = map plain_origin (origins d')) by (unfold origins; now rewrite F, F', <- !o_origins, Q).
    rewrite (both_tests _ _ S6 (lines_of_tests f f' Q _ _ _ _ _ _ B2 B2' O)). congruence.
  - pose proof (build_eq pr name content dir) as B. pose proof (build_eq pr name' content' dir) as B'. rewrite E in B. rewrite E' in B'.
    assert (N : forall name content e, match e with EComposite es => build_gherkin_model pr name content dir = rbind (map_result error_of es) (fun l => Ok (RErrors l, None)) | _ => build_gherkin_model pr name content dir = Ok (RErrors [mkError 1 0 (TExn e)], None) end ->
      forall x n, build_gherkin_model pr name content dir <> Ok (RSuite x, n)).
    { intros nm ct e0 H x n F. destruct e0; rewrite F in H; try discriminate H. destruct (map_result error_of es); discriminate H. }
    pose proof (N name content e B) as N1. pose proof (N name' content' e' B') as N2.
    destruct (build_gherkin_model pr name content dir) as [[[x|l] n]|], (build_gherkin_model pr name' content' dir) as [[[x'|l'] n']|]; auto; try (now destruct (N1 x n)); now destruct (N2 x' n').
Qed.
Print Assumptions C70_same_suite.

(** the texts of C68 meet the hypotheses; the suite has a test *)
Example C70_case : is_markdown (s "a.feature.md") = true /\ is_markdown (s "a.feature") = false /\
  TransSpec.translation en TransSpec.Start (split_lines PropTranslate.md_text) (split_lines PropTranslate.classic_text) /\
  (forall g, read_file (s "a.feature") PropTranslate.classic_text = Ok g -> worded_document g) /\
  (exists x n, build_gherkin_model (fun _ => true) (s "a.feature.md") PropTranslate.md_text None = Ok (RSuite x, n) /\
    map (fun t => (rt_name t, rt_line t, map (fun c => (rc_name c, rc_line c)) (rt_calls t))) (rs_tests x) =
    [(s "buy x = 7", 9, [(s "Given a shop", 5); (s "When I buy 7", 10); (s "Then this", 14)])]).
Proof.
  split; [reflexivity|]. split; [reflexivity|]. split; [exact PropTranslate.C68_case|]. split.
  - intros g H. assert (E : exists g, read_file (s "a.feature") PropTranslate.classic_text = Ok g /\ worded_document g).
    { eexists. split; [vm_compute; reflexivity|]. unfold worded_document. cbn [gd_feature]. repeat constructor; cbn; tauto. }
    destruct E as [g' [E W]]. rewrite E in H. injection H as <-. exact W.
  - do 2 eexists. split; vm_compute; reflexivity.
Qed.
(** the hypothesis on stars is needed: their steps have the type Context in Markdown and Unknown in classic files, and
    for Unknown the keyword is left out of the name of the call *)
Example C70_star : 
  exists x n x' n', build_gherkin_model (fun _ => true) (s "a.feature.md") (text_of_lines [s "# Feature: f"; s "## Scenario: s"; s "- * x"]) None = Ok (RSuite x, n) /\
    build_gherkin_model (fun _ => true) (s "a.feature") (text_of_lines [s "Feature: f"; s "Scenario: s"; s "* x"]) None = Ok (RSuite x', n') /\
    map (fun t => map rc_name (rt_calls t)) (rs_tests x) = [[s "* x"]] /\ map (fun t => map rc_name (rt_calls t)) (rs_tests x') = [[s "x"]].
Proof. do 4 eexists. split; [vm_compute; reflexivity|]. split; [vm_compute; reflexivity|]. split; vm_compute; reflexivity. Qed.
