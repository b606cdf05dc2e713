(** * Tags moved down: C106 *)
From Verif Require Import PyStr PyStrFacts Types Regex Line DialectData Matcher Ast Parser Compiler LineSpec LangSpec DocSpec PartsSpec PickleSpec PickleFacts PickleTotal PropLine PropParse PropCompile EssenceSpec EssenceFacts
  Glob Robot RobotSpec SuiteSpec RobotFacts PropRobot WriteSpec PropWrite PropEssence PropStepMore PropSpread GroupSpec PropGroup DownSpec.
Import PickleSpec.

Definition rule_tags (r : option rule_ast) : list tag := match r with None => [] | Some r => ru_tags r end.
Definition down_origin (o : origin) : origin :=
  mkOrigin (option_map down_rule (o_rule o)) (down_scenario (rule_tags (o_rule o)) (o_scenario o))
    (match o_row o with None => None | Some (ex, h, r) => Some (tagged (rule_tags (o_rule o) ++ sc_tags (o_scenario o)) ex, h, r) end).
Lemma down_scenario_origins r x : scenario_origins (option_map down_rule r) (down_scenario (rule_tags r) x) = map down_origin (scenario_origins r x).
Proof.
  unfold scenario_origins. cbn [down_scenario sc_examples]. destruct (sc_examples x) as [|e l] eqn:E; [reflexivity|]. cbn [map]. change (tagged (rule_tags r ++ sc_tags x) e :: map (tagged (rule_tags r ++ sc_tags x)) l) with (map (tagged (rule_tags r ++ sc_tags x)) (e :: l)).
  generalize (e :: l). intros k. induction k as [|c k IH]; [reflexivity|]. cbn [map flat_map]. rewrite map_app, <- IH. f_equal. unfold examples_origins. cbn [tagged ex_header ex_body]. destruct (ex_header c); [|reflexivity]. rewrite map_map. reflexivity.
Qed.
Lemma down_scenarios_origins r l : flat_map (scenario_origins (option_map down_rule r)) (map (down_scenario (rule_tags r)) l) = map down_origin (flat_map (scenario_origins r) l).
Proof. induction l as [|x l IH]; [reflexivity|]. cbn [map flat_map]. now rewrite map_app, IH, down_scenario_origins. Qed.
Lemma down_origins f : feature_origins (tags_down f) = map down_origin (feature_origins f).
Proof.
  unfold feature_origins. cbn [tags_down fe_scenarios fe_rules]. rewrite map_app. f_equal; [apply (down_scenarios_origins None)|]. induction (fe_rules f) as [|r l IH]; [reflexivity|]. cbn [map flat_map down_rule ru_scenarios]. rewrite map_app, IH. f_equal. apply (down_scenarios_origins (Some r)).
Qed.
(** where a row is, the scenario has examples *)
Lemma rows_have_examples f o : In o (feature_origins f) -> (o_row o = None <-> sc_examples (o_scenario o) = []).
Proof.
  assert (G : forall r l, In o (flat_map (scenario_origins r) l) -> (o_row o = None <-> sc_examples (o_scenario o) = [])).
  { intros r l H. apply in_flat_map in H as [x [_ H]]. unfold scenario_origins in H. destruct (sc_examples x) as [|e k] eqn:E.
    - destruct H as [<-|[]]. cbn. tauto.
    - assert (Q : exists c, In c (e :: k) /\ In o (examples_origins r x c)) by (now apply in_flat_map). destruct Q as [c [_ H2]]. unfold examples_origins in H2. destruct (ex_header c); [|destruct H2]. apply in_map_iff in H2 as [w [<- _]]. cbn. rewrite E. split; discriminate. }
  intros H. unfold feature_origins in H. apply in_app_or in H as [H|H]; [exact (G _ _ H)|]. apply in_flat_map in H as [r [_ H]]. exact (G _ _ H).
Qed.
Lemma down_case f o : In o (feature_origins f) -> case_view (tags_down f) (down_origin o) = case_view f o.
Proof.
  intros H. apply rows_have_examples in H. unfold case_view.
  assert (I : inherited_steps (tags_down f) (down_origin o) = inherited_steps f o) by (unfold inherited_steps; cbn; destruct (sc_steps (o_scenario o)); [reflexivity|]; now destruct (o_rule o)).
  assert (L : lower_tags (down_origin o) = lower_tags o).
  { unfold lower_tags. cbn [down_origin o_rule o_scenario o_row down_scenario sc_tags]. fold (rule_tags (o_rule o)). replace (match option_map down_rule (o_rule o) with None => [] | Some r => ru_tags r end) with (@nil tag) by now destruct (o_rule o).
    destruct (o_row o) as [[[ex h] r]|].
    - destruct (sc_examples (o_scenario o)); [now discriminate (proj2 H eq_refl)|]. cbn [app tagged ex_tags]. now rewrite <- app_assoc.
    - rewrite (proj1 H eq_refl). cbn [app]. now rewrite !app_nil_r. }
  assert (W : row_view (down_origin o) = row_view o) by (unfold row_view; cbn; destruct (o_row o) as [[[ex h] r]|]; reflexivity).
  rewrite I, L, W. reflexivity.
Qed.
(** C106.  Moving the tags down changes nothing in what the feature says. *)
Theorem C106_same_view : forall f, feature_view (tags_down f) = feature_view f.
Proof.
  intros f. unfold feature_view. rewrite down_origins, map_map. cbn [tags_down fe_tags fe_language fe_name fe_desc]. f_equal. apply map_ext_in. apply down_case.
Qed.
Theorem C106_same_suite : forall printable name name' content content' dir d d' f f',
  read_file name content = Ok d -> read_file name' content' = Ok d' -> gd_feature d = Some f -> gd_feature d' = Some f' ->
  WriteSpec.plain f' = WriteSpec.plain (tags_down f) -> plain_headers d ->
  exists x x', build_gherkin_model printable name content dir = Ok (RSuite x, fe_name f) /\ build_gherkin_model printable name' content' dir = Ok (RSuite x', fe_name f) /\ suite_shape x = suite_shape x'.
Proof.
  intros pr name name' content content' dir d d' f f' R R' F F' Q P. apply (C105_same_suite pr name name' content content' dir d d' f f'); auto. now rewrite <- (C106_same_view f), <- (view_plain f'), Q, view_plain.
Qed.
Print Assumptions C106_same_suite.

Section Written.
Context (d : dialect).
Lemma down_scenario_ok pre x : Forall tag_ok pre -> scenario_ok d x -> scenario_ok d (down_scenario pre x).
Proof.
  intros Pre [T [De [G [S E]]]]. split; [exact T|]. split; [exact De|]. split; [|split; [exact S|]].
  - cbn [down_scenario sc_tags]. destruct (sc_examples x); [|constructor]. apply Forall_app. auto.
  - cbn [down_scenario sc_examples]. apply Forall_map. eapply Forall_impl; [|exact E]. intros e [T' [De' [G' R]]]. split; [exact T'|]. split; [exact De'|]. split; [|exact R]. cbn [tagged ex_tags]. apply Forall_app. split; [|exact G']. apply Forall_app. auto.
Qed.
Lemma down_ok x : feature_ok d x -> feature_ok d (tags_down x).
Proof.
  intros [T [De [G [B [S R]]]]]. split; [exact T|]. split; [exact De|]. split; [exact G|]. split; [exact B|]. split.
  - cbn [tags_down fe_scenarios]. apply Forall_map. eapply Forall_impl; [|exact S]. intros y. apply down_scenario_ok. constructor.
  - cbn [tags_down fe_rules]. apply Forall_map. eapply Forall_impl; [|exact R]. intros y [T' [De' [G' [B' S']]]]. split; [exact T'|]. split; [exact De'|]. split; [constructor|]. split; [exact B'|].
    cbn [down_rule ru_scenarios]. apply Forall_map. eapply Forall_impl; [|exact S']. intros z. now apply down_scenario_ok.
Qed.
End Written.
(** C106.  In every classic feature file the tags can be moved down. *)
Theorem C106_written : forall printable name content dir d f, is_markdown name = false -> read_file name content = Ok d -> gd_feature d = Some f -> plain_headers d ->
  exists x x', build_gherkin_model printable name content dir = Ok (RSuite x, fe_name f) /\ build_gherkin_model printable name (feature_text (tags_down f)) dir = Ok (RSuite x', fe_name f) /\ suite_shape x = suite_shape x'.
Proof.
  intros pr name content dir d f M R F P. assert (R0 : parse_with false false (s "en") content = Ok d) by (unfold read_file in R; now rewrite M in R).
  destruct (C54_returned false (s "en") content d f en_ok R0 F) as [l [dl [L [D W]]]].
  apply (C105_written pr name content dir d f (tags_down f)); auto; [|apply C106_same_view]. exists l, dl. split; [exact L|]. split; [exact D | now apply down_ok].
Qed.
Print Assumptions C106_written.

(** ** Cases *)
Definition c106_text : str := text_of_lines [s "@f"; s "Feature: f"; s "@a"; s "Scenario: one"; s "Given a"; s "@b @c"; s "Scenario Outline: two <n>"; s "But d <n>"; s "@t"; s "Examples:"; s "| n |"; s "| 1 |"; s "Examples:"; s "| n |"; s "| 2 |"; s "@r"; s "Rule: r"; s "@s"; s "Scenario: three"; s "Then e"].
Definition c106_tags (text : str) : list (str * list str) :=
  match build_gherkin_model (fun _ => true) (s "a.feature") text None with Ok (RSuite su, _) => map (fun t => (rt_name t, rt_tags t)) (rs_tests su) | _ => [] end.
Example C106_case : is_markdown (s "a.feature") = false /\ read_file (s "a.feature") c106_text = Ok (doc_in c106_text) /\ gd_feature (doc_in c106_text) = Some (feat_in c106_text) /\ plain_headers (doc_in c106_text) /\
  feature_text (tags_down (feat_in c106_text)) = text_of_lines [s "# language: en"; s "@f "; s "Feature: f"; s "@a "; s "Scenario: one"; s "Given a"; s "Scenario Outline: two <n>"; s "But d <n>"; s "@b @c @t "; s "Examples: "; s "| n |"; s "| 1 |"; s "@b @c "; s "Examples: "; s "| n |"; s "| 2 |"; s "Rule: r"; s "@r @s "; s "Scenario: three"; s "Then e"] /\
  c106_tags c106_text = [(s "one", [s "a"]); (s "two 1 n = 1", [s "b"; s "c"; s "t"]); (s "two 2 n = 2", [s "b"; s "c"]); (s "three", [s "r"; s "s"])] /\
  c106_tags (feature_text (tags_down (feat_in c106_text))) = c106_tags c106_text.
Proof.
  split; [reflexivity|]. split; [vm_compute; reflexivity|]. split; [vm_compute; reflexivity|]. split; [apply simple_headers; vm_compute; reflexivity|]. split; [vm_compute; reflexivity|]. split; vm_compute; reflexivity.
Qed.
