(** * Features without rules: C107 *)
From Verif Require Import PyStr PyStrFacts Types Regex Line DialectData Matcher Ast Parser Compiler LineSpec LangSpec DocSpec PartsSpec PickleSpec PickleFacts PickleTotal PropLine PropParse PropCompile EssenceSpec EssenceFacts
  Glob Robot RobotSpec SuiteSpec RobotFacts PropRobot WriteSpec PropWrite PropEssence PropStepMore SpreadSpec PropSpread GroupSpec PropGroup DownSpec PropDown FlatSpec.
Import PickleSpec.

Definition outside (o : origin) : origin := mkOrigin None (o_scenario o) (o_row o).
Lemma outside_scenario r x : scenario_origins None x = map outside (scenario_origins r x).
Proof.
  unfold scenario_origins. destruct (sc_examples x) as [|e l]; [reflexivity|]. generalize (e :: l). intros m. induction m as [|a m IH]; [reflexivity|]. cbn [flat_map]. rewrite map_app, <- IH. f_equal.
  unfold examples_origins. destruct (ex_header a); [|reflexivity]. rewrite map_map. reflexivity.
Qed.
Lemma outside_scenarios r l : flat_map (scenario_origins None) l = map outside (flat_map (scenario_origins r) l).
Proof. induction l as [|x l IH]; [reflexivity|]. cbn [flat_map]. now rewrite map_app, <- IH, <- outside_scenario. Qed.
Lemma dissolve_origins f : feature_origins (dissolve f) = map outside (feature_origins (tags_down f)).
Proof.
  unfold feature_origins. cbn [dissolve tags_down fe_scenarios fe_rules flat_map]. rewrite app_nil_r, flat_map_app, map_app, <- outside_scenarios. f_equal.
  induction (fe_rules f) as [|r l IH]; [reflexivity|]. cbn [map flat_map down_rule ru_scenarios]. now rewrite flat_map_app, map_app, IH, <- outside_scenarios.
Qed.
Lemma rule_of_origin f o r : In o (feature_origins f) -> o_rule o = Some r -> In r (fe_rules f).
Proof.
  intros H E. assert (G : forall q l, In o (flat_map (scenario_origins q) l) -> o_rule o = q).
  { intros q l K. apply in_flat_map in K as [x [_ K]]. unfold scenario_origins in K. destruct (sc_examples x) as [|e k]; [now destruct K as [<-|[]]|].
    assert (Q : exists c, In c (e :: k) /\ In o (examples_origins q x c)) by (now apply in_flat_map). destruct Q as [c [_ Q]]. unfold examples_origins in Q. destruct (ex_header c); [|destruct Q]. apply in_map_iff in Q as [w [<- _]]. reflexivity. }
  unfold feature_origins in H. apply in_app_or in H as [H|H].
  - apply G in H. congruence.
  - apply in_flat_map in H as [q [I H]]. apply G in H. assert (q = r) by congruence. now subst.
Qed.
(** C107.  Without steps in the backgrounds of rules, dissolving the rules changes nothing in what the feature says. *)
Theorem C107_same_view : forall f, no_rule_steps f -> feature_view (dissolve f) = feature_view f.
Proof.
  intros f N. rewrite <- (C106_same_view f). unfold feature_view. rewrite dissolve_origins, map_map. cbn [dissolve tags_down fe_tags fe_language fe_name fe_desc]. f_equal. apply map_ext_in. intros o Ho.
  assert (R : forall r, o_rule o = Some r -> ru_tags r = [] /\ background_steps (ru_background r) = []).
  { intros r E. apply (rule_of_origin _ _ _ Ho) in E. cbn [tags_down fe_rules] in E. apply in_map_iff in E as [q [<- I]]. split; [reflexivity|]. unfold no_rule_steps in N. rewrite Forall_forall in N. exact (N q I). }
  unfold case_view, lower_tags, inherited_steps, row_view. cbn [outside o_rule o_scenario o_row dissolve tags_down fe_background]. destruct (o_rule o) as [r|]; [|reflexivity]. destruct (R r eq_refl) as [-> ->]. reflexivity.
Qed.
Lemma spread_no_steps f : no_rule_steps (spread f).
Proof. unfold no_rule_steps. cbn [spread fe_rules]. apply Forall_map, Forall_forall. reflexivity. Qed.
Lemma view_pl a b : WriteSpec.plain a = WriteSpec.plain b -> feature_view a = feature_view b.
Proof. intros E. now rewrite <- (view_plain a), E, view_plain. Qed.

Section Written.
Context (d : dialect).
Lemma dissolve_ok x : feature_ok d x -> feature_ok d (dissolve x).
Proof.
  intros [T [De [G [B [S R]]]]]. split; [exact T|]. split; [exact De|]. split; [exact G|]. split; [exact B|]. split; [|constructor].
  cbn [dissolve fe_scenarios]. apply Forall_app. split; [apply Forall_map; eapply Forall_impl; [|exact S]; intros y; apply down_scenario_ok; constructor|].
  induction R as [|r l [_ [_ [G' [_ S']]]] R IH]; [constructor|]. cbn [flat_map]. apply Forall_app. split; [|exact IH]. apply Forall_map. eapply Forall_impl; [|exact S']. intros z. now apply down_scenario_ok.
Qed.
End Written.
(** C107.  Every classic feature file without placeholders in its backgrounds can be written with neither backgrounds nor rules. *)
Theorem C107_written : forall printable name content dir d f, is_markdown name = false -> read_file name content = Ok d -> gd_feature d = Some f -> plain_headers d -> no_placeholders f ->
  exists x x', build_gherkin_model printable name content dir = Ok (RSuite x, fe_name f) /\ build_gherkin_model printable name (feature_text (flattened f)) dir = Ok (RSuite x', fe_name f) /\ suite_shape x = suite_shape x'.
Proof.
  intros pr name content dir d f M R F P N. assert (R0 : parse_with false false (s "en") content = Ok d) by (unfold read_file in R; now rewrite M in R).
  destruct (C54_returned false (s "en") content d f en_ok R0 F) as [l [dl [L [D W]]]].
  assert (Ws : writable (spread f)) by (exists l, dl; split; [exact L|]; split; [exact D | now apply spread_ok]).
  assert (Wf : writable (flattened f)) by (exists l, dl; split; [exact L|]; split; [exact D | now apply dissolve_ok, spread_ok]).
  destruct (C54_written false (s "en") (spread f) en_ok Ws) as [d1 [f1 [R1 [F1 [_ Q1]]]]].
  destruct (C54_written false (s "en") (flattened f) en_ok Wf) as [d2 [f2 [R2 [F2 [_ Q2]]]]].
  assert (E1 : read_file name (feature_text (spread f)) = Ok d1) by (unfold read_file; now rewrite M).
  assert (E2 : read_file name (feature_text (flattened f)) = Ok d2) by (unfold read_file; now rewrite M).
  assert (V : feature_view f1 = feature_view f2) by (rewrite (view_pl _ _ Q1), (view_pl _ _ Q2); symmetry; apply C107_same_view, spread_no_steps).
  destruct (C103_same_suite pr name name content _ dir d d1 f f1 R E1 F F1 Q1 P N) as [x [x1 [B [B1 S1]]]].
  assert (P1 : plain_headers d1).
  { unfold plain_headers, origins in *. rewrite F in P. rewrite F1. assert (O : map plain_origin (feature_origins f1) = map plain_origin (map (spread_origin f) (feature_origins f))) by (rewrite <- p_origins, Q1, p_origins, s_origins; reflexivity).
    clear - P O. revert O P. generalize (feature_origins f1). induction (feature_origins f) as [|o os IH]; intros os' O P; destruct os' as [|o' os']; try discriminate O; [constructor|]. inversion P as [|? ? P1 P2]; subst.
    cbn [map] in O. assert (O1 : plain_origin o' = plain_origin (spread_origin f o)) by congruence. constructor; [|apply IH; [congruence | exact P2]]. rewrite header_cells in *. now rewrite <- (proj1 (spread_cells f o o' O1)). }
  destruct (C105_same_suite pr name name _ _ dir d1 d2 f1 f2 E1 E2 F1 F2 V P1) as [y1 [x2 [B1' [B2 S2]]]]. rewrite B1 in B1'. assert (Y : y1 = x1) by congruence. subst y1.
  assert (Nm : fe_name f1 = fe_name f) by exact (f_equal fe_name Q1). rewrite Nm in B2. exists x, x2. split; [exact B|]. split; [exact B2|]. congruence.
Qed.
Print Assumptions C107_written.
(** C107.  The same of two files, classic or Markdown; here the rules of the first have no backgrounds with steps, and placeholders do not matter. *)
Theorem C107_same_suite : forall printable name name' content content' dir d d' f f',
  read_file name content = Ok d -> read_file name' content' = Ok d' -> gd_feature d = Some f -> gd_feature d' = Some f' ->
  WriteSpec.plain f' = WriteSpec.plain (dissolve f) -> no_rule_steps f -> plain_headers d ->
  exists x x', build_gherkin_model printable name content dir = Ok (RSuite x, fe_name f) /\ build_gherkin_model printable name' content' dir = Ok (RSuite x', fe_name f) /\ suite_shape x = suite_shape x'.
Proof.
  intros pr name name' content content' dir d d' f f' R R' F F' Q N P. apply (C105_same_suite pr name name' content content' dir d d' f f'); auto. rewrite (view_pl _ _ Q). symmetry. now apply C107_same_view.
Qed.
Print Assumptions C107_same_suite.

(** ** Cases *)
Definition c107_text : str := text_of_lines [s "Feature: f"; s "Background: b"; s "Given a"; s "Scenario: one"; s "And c"; s "@r"; s "Rule: r"; s "Background:"; s "When e"; s "@s"; s "Example: three"; s "Then g"; s "Scenario Outline: four"; s "Then h <n>"; s "@t"; s "Examples:"; s "| n |"; s "| 1 |"; s "Rule: q"; s "Scenario: five"; s "Then i"].
Definition c107_tests (text : str) : list (str * list str * list str) :=
  match build_gherkin_model (fun _ => true) (s "a.feature") text None with Ok (RSuite su, _) => map (fun t => (rt_name t, rt_tags t, map rc_name (rt_calls t))) (rs_tests su) | _ => [] end.
Example C107_case : is_markdown (s "a.feature") = false /\ read_file (s "a.feature") c107_text = Ok (doc_in c107_text) /\ gd_feature (doc_in c107_text) = Some (feat_in c107_text) /\ plain_headers (doc_in c107_text) /\ no_placeholders (feat_in c107_text) /\
  feature_text (flattened (feat_in c107_text)) = text_of_lines [s "# language: en"; s "Feature: f"; s "Scenario: one"; s "Given a"; s "And c"; s "@r @s "; s "Example: three"; s "Given a"; s "When e"; s "Then g"; s "Scenario Outline: four"; s "Given a"; s "When e"; s "Then h <n>"; s "@r @t "; s "Examples: "; s "| n |"; s "| 1 |"; s "Scenario: five"; s "Given a"; s "Then i"] /\
  c107_tests c107_text = [(s "one", [], [s "Given a"; s "And c"]); (s "three", [s "r"; s "s"], [s "Given a"; s "When e"; s "Then g"]); (s "four n = 1", [s "r"; s "t"], [s "Given a"; s "When e"; s "Then h 1"]); (s "five", [], [s "Given a"; s "Then i"])] /\
  c107_tests (feature_text (flattened (feat_in c107_text))) = c107_tests c107_text.
Proof.
  split; [reflexivity|]. split; [vm_compute; reflexivity|]. split; [vm_compute; reflexivity|]. split; [apply simple_headers; vm_compute; reflexivity|]. split; [apply no_angle; vm_compute; reflexivity|]. split; [vm_compute; reflexivity|]. split; vm_compute; reflexivity.
Qed.
