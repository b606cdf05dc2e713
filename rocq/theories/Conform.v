(** * The repository's own tests and example files, about the model

    These examples are tests of the model, not proofs of properties: every assertion of tests/gurke/*.py, with the values the
    test files expect, and the six feature files of examples/simple/features, with the tests one expects of them. *)
From Verif Require Import PyStr Types Regex Line DialectData Matcher Ast Parser Compiler Glob Robot PropParse.

Definition lf (ls : list str) : str := flat_map (fun l => l ++ [ch_nl]) ls.

(** ** tests/gurke/test_gherkin.py *)
Definition t_feature (lang kw name : str) : gdoc :=
  mkGdoc (Some (mkFeature [] (mkLoc 1 (Some 1)) (Some lang) (Some kw) (Some name) [] None [] [])) [].
(* :9-25 *)
Example test_parser : parse (s "Feature: Foo") = Ok (t_feature (s "en") (s "Feature") (s "Foo")).
Proof. vm_compute. reflexivity. Qed.
(* :28-34 *)
Example test_parse_multiple_features : run_session false false (s "en") [s "Feature: 1"; s "Feature: 2"] =
  Ok [Ok (t_feature (s "en") (s "Feature") (s "1")); Ok (t_feature (s "en") (s "Feature") (s "2"))].
Proof. vm_compute. reflexivity. Qed.
(* :37-85 *)
Example test_parse_feature_after_parser_error : exists es d f, run_session false false (s "en")
  [lf [s "# a comment"; s "Feature: Foo"; s "  Scenario: Bar"; s "    Given x"; s "      ```"; s "      unclosed docstring"];
   lf [s "Feature: Foo"; s "  Scenario: Bar"; s "    Given x"; s "      """""""; s "      closed docstring"; s "      """""""]] = Ok [Err (EComposite es); Ok d] /\
  gd_feature d = Some f /\ fe_background f = None /\ fe_rules f = [] /\
  fe_scenarios f = [mkScenario 1 [] (mkLoc 2 (Some 3)) (Some (s "Scenario")) (Some (s "Bar")) []
    [mkStep 0 (mkLoc 3 (Some 5)) (Some (s "Given ")) (Some KtContext) (Some (s "x")) (ADoc (mkDoc (mkLoc 4 (Some 7)) (s "closed docstring") (Some (s """""""")) None))] []].
Proof. do 3 eexists. split; [vm_compute; reflexivity|]. split; [reflexivity|]. repeat split; reflexivity. Qed.
(* :88-106 *)
Example test_change_the_default_language : parse_with false false (s "no") (s "Egenskap: i18n support - " ++ [229%N; 230%N; 248%N]) =
  Ok (t_feature (s "no") (s "Egenskap") (s "i18n support - " ++ [229%N; 230%N; 248%N])).
Proof. vm_compute. reflexivity. Qed.

(** ** tests/gurke/test_gherkin_in_markdown_token_matcher.py *)
(* GherkinInMarkdownTokenMatcher(lang).match_<k>(token) for one line: the result, and type, keyword, text, column and items of the token *)
Definition seen (t : token) := (t_mtype t, t_keyword t, t_text t, t_loc_col t, map (fun i => (i_column i, i_text i)) (t_items t)).
Definition md_try (lang : str) (k : tok) (line : str) :=
  rbind (new_matcher true lang) (fun ms => match md_match k ms (new_token line 1) with (Ok b, _, t) => Ok (b, seen t) | (Err e, _, _) => Err e end).
(* :9-16 *)
Example test_it_matches_feature_line : exists c, md_try (s "en") TkFeatureLine (s "## Feature: hello") = Ok (true, (Some TkFeatureLine, Some (s "Feature"), Some (s "hello"), c, [])).
Proof. eexists. vm_compute. reflexivity. Qed.
(* :19-26 *)
Example test_it_matches_feature_line_in_french : exists c, md_try (s "fr") TkFeatureLine (s "## Fonctionnalit" ++ [233%N] ++ s ": hello") = Ok (true, (Some TkFeatureLine, Some (s "Fonctionnalit" ++ [233%N]), Some (s "hello"), c, [])).
Proof. eexists. vm_compute. reflexivity. Qed.
(* :29-37 *)
Example test_it_matches_bullet_step : exists c, md_try (s "en") TkStepLine (s "  *  Given I have 3 cukes") = Ok (true, (Some TkStepLine, Some (s "Given "), Some (s "I have 3 cukes"), c, [])) /\ c = Some 6.
Proof. eexists. vm_compute. split; reflexivity. Qed.
(* :40-48 *)
Example test_it_matches_plus_step : exists c, md_try (s "en") TkStepLine (s "  +  Given I have 3 cukes") = Ok (true, (Some TkStepLine, Some (s "Given "), Some (s "I have 3 cukes"), c, [])) /\ c = Some 6.
Proof. eexists. vm_compute. split; reflexivity. Qed.
(* :51-59 *)
Example test_it_matches_hyphen_step : exists c, md_try (s "en") TkStepLine (s "  -  Given I have 3 cukes") = Ok (true, (Some TkStepLine, Some (s "Given "), Some (s "I have 3 cukes"), c, [])) /\ c = Some 6.
Proof. eexists. vm_compute. split; reflexivity. Qed.
(* :62-67 *)
Example test_it_matches_arbitrary_text_as_other : exists kw x c, md_try (s "en") TkOther (s "Whatever") = Ok (true, (Some TkOther, kw, x, c, [])).
Proof. do 3 eexists. vm_compute. reflexivity. Qed.
(* :70-75 *)
Example test_it_matches_a_non_keyword_line_as_other : exists kw x c, md_try (s "en") TkOther (s "* whatever Given") = Ok (true, (Some TkOther, kw, x, c, [])).
Proof. do 3 eexists. vm_compute. reflexivity. Qed.
(* :78-83 *)
Example test_it_matches_a_non_keyword_header_line_as_other : exists kw x c, md_try (s "en") TkOther (s "## The world is wet") = Ok (true, (Some TkOther, kw, x, c, [])).
Proof. do 3 eexists. vm_compute. reflexivity. Qed.
(* :86-93 *)
Example test_it_matches_3_ticks_doctring_separator : exists c, md_try (s "en") TkDocStringSeparator (s "  ```somefink") = Ok (true, (Some TkDocStringSeparator, Some (s "```"), Some (s "somefink"), c, [])).
Proof. eexists. vm_compute. reflexivity. Qed.
(* :96-117 *)
Example test_it_matches_4_ticks_doctring_separator : exists ms ms1 ms2 ms3 t1 t2 t3, new_matcher true (s "en") = Ok ms /\
  md_match TkDocStringSeparator ms (new_token (s "  ````") 1) = (Ok true, ms1, t1) /\ (t_mtype t1, t_keyword t1, t_indent t1, t_text t1) = (Some TkDocStringSeparator, Some (s "````"), 2%Z, Some []) /\
  md_match TkOther ms1 (new_token (s "  ```") 1) = (Ok true, ms2, t2) /\ (t_mtype t2, t_keyword t2, t_text t2) = (Some TkOther, None, Some (s "```")) /\
  md_match TkDocStringSeparator ms2 (new_token (s "  ````") 1) = (Ok true, ms3, t3) /\ (t_mtype t3, t_keyword t3, t_text t3) = (Some TkDocStringSeparator, Some (s "````"), Some []).
Proof. do 7 eexists. split; [vm_compute; reflexivity|]. split; [vm_compute; reflexivity|]. split; [vm_compute; reflexivity|]. split; [vm_compute; reflexivity|]. split; [vm_compute; reflexivity|]. split; vm_compute; reflexivity. Qed.
(* :120-128 *)
Example test_it_matches_table_row_indented_2_spaces : exists kw x c, md_try (s "en") TkTableRow (s "  |foo|bar|") = Ok (true, (Some TkTableRow, kw, x, c, [(4, s "foo"); (8, s "bar")])) /\ kw = Some (s "|").
Proof. do 3 eexists. split; [vm_compute|]; reflexivity. Qed.
(* :131-139 *)
Example test_it_matches_table_row_indented_5_spaces : exists kw x c, md_try (s "en") TkTableRow (s "     |foo|bar|") = Ok (true, (Some TkTableRow, kw, x, c, [(7, s "foo"); (11, s "bar")])) /\ kw = Some (s "|").
Proof. do 3 eexists. split; [vm_compute|]; reflexivity. Qed.
(* :150-154 *)
Example test_it_does_not_match_table_row_indented_6_space : exists t, md_try (s "en") TkTableRow (s "      |foo|bar|") = Ok (false, t).
Proof. eexists. vm_compute. reflexivity. Qed.
(* :157-167 *)
Example test_it_matches_table_separator_row_as_comment : exists ms ms1 ms2 ms3 t1 t2 t3, new_matcher true (s "en") = Ok ms /\
  md_match TkTableRow ms (new_token (s "  | h1 | h2 |") 1) = (Ok true, ms1, t1) /\ md_match TkTableRow ms1 (new_token (s "  | --- | --- |") 1) = (Ok false, ms2, t2) /\ md_match TkComment ms2 t2 = (Ok true, ms3, t3).
Proof. do 7 eexists. split; [vm_compute; reflexivity|]. split; [vm_compute; reflexivity|]. split; [vm_compute; reflexivity|]. vm_compute. reflexivity. Qed.
(* :170-179 *)
Example test_it_matches_indented_tags : exists kw x c, md_try (s "en") TkTagLine (s "  `@foo` `@bar`") = Ok (true, (Some TkTagLine, kw, x, c, [(4, s "@foo"); (11, s "@bar")])).
Proof. do 3 eexists. vm_compute. reflexivity. Qed.
(* :182-191 *)
Example test_it_matches_unindented_tags : exists kw x c, md_try (s "en") TkTagLine (s "`@foo`   `@bar`") = Ok (true, (Some TkTagLine, kw, x, c, [(2, s "@foo"); (11, s "@bar")])).
Proof. do 3 eexists. vm_compute. reflexivity. Qed.
(* :194-201 *)
Example test_it_matches_RuleLine : exists c, md_try (s "en") TkRuleLine (s "## Rule: the world") = Ok (true, (Some TkRuleLine, Some (s "Rule"), Some (s "the world"), c, [])).
Proof. eexists. vm_compute. reflexivity. Qed.
(* :204-211 *)
Example test_it_matches_ScenarioLine : exists c, md_try (s "en") TkScenarioLine (s "## Scenario: the one where") = Ok (true, (Some TkScenarioLine, Some (s "Scenario"), Some (s "the one where"), c, [])).
Proof. eexists. vm_compute. reflexivity. Qed.
(* :214-221 *)
Example test_it_matches_ScenarioLine_outline : exists c, md_try (s "en") TkScenarioLine (s "## Scenario Outline: the ones where") = Ok (true, (Some TkScenarioLine, Some (s "Scenario Outline"), Some (s "the ones where"), c, [])).
Proof. eexists. vm_compute. reflexivity. Qed.
(* :224-231 *)
Example test_it_matches_backgroundLine : exists c, md_try (s "en") TkBackgroundLine (s "## Background: once upon a time") = Ok (true, (Some TkBackgroundLine, Some (s "Background"), Some (s "once upon a time"), c, [])).
Proof. eexists. vm_compute. reflexivity. Qed.
(* :234-241 *)
Example test_it_matches_ExamplesLine : exists c, md_try (s "en") TkExamplesLine (s "## Examples: ") = Ok (true, (Some TkExamplesLine, Some (s "Examples"), Some ([]), c, [])).
Proof. eexists. vm_compute. reflexivity. Qed.

(** ** The example files: names, documentation, tags and calls of the tests *)
Definition suite_view (name text : str) :=
  rbind (build_gherkin_model (fun _ => true) name text None) (fun q => match q with
  | (RSuite x, n) => Ok (n, rs_doc x, rs_test_tags x, map (fun t => (rt_name t, rt_doc t, rt_tags t, rt_line t, map (fun c => (rc_name c, rc_args c, rc_line c)) (rt_calls t))) (rs_tests x))
  | (RErrors _, _) => Err EUnmodelled end).
(** examples/simple/features/Bladerunner.feature *)
Definition ex_bladerunner : str :=
  lf [s "Feature: Android Detection System";
  s "  As a security officer";
  s "  I want to ensure that only humans gain access";
  [];
  s "  Scenario: A human attempts to gain access";
  s "    Given An individual reaches the security checkpoint";
  s "    And The individual is a human";
  s "    When The detection system is activated";
  s "    Then The individual should be granted access";
  [];
  s "  Scenario: An android attempts to gain access";
  s "    Given An individual reaches the security checkpoint";
  s "    And The individual is an android";
  s "    When The detection system is activated";
  s "    Then The individual should be denied access"].
(** examples/simple/features/Minimal.feature *)
Definition ex_minimal : str :=
  lf [s "@browser";
  s "Feature: Minimal";
  [];
  s "  @minimal";
  s "  Scenario: minimalistic";
  s "    Given the minimalism";
  [];
  s "  @maximal";
  s "  Scenario: another one";
  s "    Given do something in the maximal way";
  [];
  s "  @another @slow";
  s "  Scenario: another one1";
  s "    Given the minimalism";
  [];
  s "  @browser";
  s "  Scenario: the last one";
  s "    Given the minimalism";
  [];
  s "  Scenario Outline: Cucumber Data Table";
  s "    Given Table with example";
  s "      | FirstName  | <FirstName>  |";
  s "      | MiddleName | <MiddleName> |";
  s "      | LastName   | <LastName>   |";
  [];
  s "    Examples:";
  s "      | FirstName | MiddleName | LastName |";
  s "      | Daniel    | D          | Biehl    |";
  s "      | Philip    | K          | Dick     |"].
(** examples/simple/features/doc_strings.feature *)
Definition ex_doc_strings : str :=
  lf [s "Feature: Parser Should Support DocStrings";
  [];
  s "  Scenario: A scenario with a docstring";
  s "    Given a blog post named ""Random"" with Markdown body";
  s "      """"""";
  s "      Some Title, Eh?";
  s "      ===============";
  s "      Here is the first paragraph of my blog post. Lorem ipsum dolor sit amet,";
  s "      consectetur adipiscing elit.";
  s "      """"""";
  [];
  s "  Scenario: A scenario with a docstring and multiple whitespace and vars";
  s "    Given a blog post named ""Random"" with Markdown body";
  s "      """"""";
  s "      " ++ [128514%N] ++ [128690%N] ++ [128659%N];
  s "      (" ++ [10049%N] ++ [180%N] ++ [9697%N] ++ s "`" ++ [10049%N] ++ s ")";
  s "      (*/" ++ [969%N] ++ [65340%N] ++ s "*)";
  s "      (^///^)";
  s "      this text contains     spaces";
  s "      and ${TEST NAME}";
  s "      """"""";
  [];
  s "  Scenario: A scenario with a backtick in the docstring";
  s "    Given a blog post named ""Random"" with Markdown body";
  s "      ```python";
  s "      " ++ [128514%N] ++ [128690%N] ++ [128659%N];
  s "      (" ++ [10049%N] ++ [180%N] ++ [9697%N] ++ s "`" ++ [10049%N] ++ s ")";
  s "      (*/" ++ [969%N] ++ [65340%N] ++ s "*)";
  s "      (^///^)";
  s "      this text contains     spaces";
  s "      and ${TEST NAME}";
  s "      ```"].
(** examples/simple/features/documentation.feature *)
Definition ex_documentation : str :=
  lf [s "Feature: Scenario Outline with a docstring";
  s "This is a documentation for the feature file.";
  [];
  s "it can be more than one line long.";
  [];
  s "  Scenario Outline: Greetings come in many forms";
  s "    this is the documentation for the scenario";
  [];
  s "    it can be more than one line long.";
  [];
  s "    and it can contain <placeholder> that will be replaced by the examples.";
  [];
  s "    Given this file:";
  s "      """"""<type>";
  s "      Greeting:<content>";
  s "      """"""";
  [];
  s "    Examples:";
  s "      | type | content |";
  s "      | en   | Hello   |";
  s "      | fr   | Bonjour |"].
(** examples/simple/features/rule_sample.feature *)
Definition ex_rule_sample : str :=
  lf [s "Feature: Highlander";
  [];
  s "  Rule: There can be only One";
  [];
  s "    Example: Only One -- More than one alive";
  s "      Given there are 3 ninjas";
  s "      And there are more than one ninja alive";
  s "      When 2 ninjas meet, they will fight";
  s "      Then one ninja dies (but not me)";
  s "      And there is one ninja less alive";
  [];
  s "    Example: Only One -- One alive";
  s "      Given there is only 1 ninja alive";
  s "      Then he (or she) will live forever ;-)";
  [];
  s "  Rule: There can be Two (in some cases)";
  [];
  s "    Example: Two -- Dead and Reborn as Phoenix"].
(** examples/simple/features/simple.feature.md *)
Definition ex_simple_md : str :=
  lf [s "# Feature: blah";
  [];
  s "@atag";
  s "## Scenario: whatever";
  [];
  s "- Given something";
  s "- When something else"].
Example bladerunner : suite_view (s "Bladerunner.feature") ex_bladerunner = Ok (Some (s "Android Detection System"), Some (s "As a security officer" ++ [10%N] ++ s "  I want to ensure that only humans gain access"), [],
  [((s "A human attempts to gain access"), None, [], 5, [((s "Given An individual reaches the security checkpoint"), [], 6); ((s "And The individual is a human"), [], 7); ((s "When The detection system is activated"), [], 8); ((s "Then The individual should be granted access"), [], 9)]);
   ((s "An android attempts to gain access"), None, [], 11, [((s "Given An individual reaches the security checkpoint"), [], 12); ((s "And The individual is an android"), [], 13); ((s "When The detection system is activated"), [], 14); ((s "Then The individual should be denied access"), [], 15)])]).
Proof. vm_compute. reflexivity. Qed.

Example minimal : suite_view (s "Minimal.feature") ex_minimal = Ok (Some (s "Minimal"), None, [(s "browser")],
  [((s "minimalistic"), None, [(s "minimal")], 5, [((s "Given the minimalism"), [], 6)]);
   ((s "another one"), None, [(s "maximal")], 9, [((s "Given do something in the maximal way"), [], 10)]);
   ((s "another one1"), None, [(s "another"); (s "slow")], 13, [((s "Given the minimalism"), [], 14)]);
   ((s "the last one"), None, [(s "browser")], 17, [((s "Given the minimalism"), [], 18)]);
   ((s "Cucumber Data Table FirstName = Daniel MiddleName = D LastName = Biehl"), None, [], 20, [((s "Given Table with example"), [(s "&{{{'rows': [{'cells': [{'value': 'FirstName'}, {'value': 'Daniel'}]}, {'cells': [{'value': 'MiddleName'}, {'value': 'D'}]}, {'cells': [{'value': 'LastName'}, {'value': 'Biehl'}]}]}}}")], 21)]);
   ((s "Cucumber Data Table FirstName = Philip MiddleName = K LastName = Dick"), None, [], 20, [((s "Given Table with example"), [(s "&{{{'rows': [{'cells': [{'value': 'FirstName'}, {'value': 'Philip'}]}, {'cells': [{'value': 'MiddleName'}, {'value': 'K'}]}, {'cells': [{'value': 'LastName'}, {'value': 'Dick'}]}]}}}")], 21)])]).
Proof. vm_compute. reflexivity. Qed.

Example doc_strings : exists a1 a2 a3, suite_view (s "doc_strings.feature") ex_doc_strings = Ok (Some (s "Parser Should Support DocStrings"), None, [],
  [(s "A scenario with a docstring", None, [], 3, [(s "Given a blog post named ""Random"" with Markdown body", [a1], 4)]);
   (s "A scenario with a docstring and multiple whitespace and vars", None, [], 12, [(s "Given a blog post named ""Random"" with Markdown body", [a2], 13)]);
   (s "A scenario with a backtick in the docstring", None, [], 23, [(s "Given a blog post named ""Random"" with Markdown body", [a3], 24)])]).
Proof. do 3 eexists. vm_compute. reflexivity. Qed.

Example documentation : suite_view (s "documentation.feature") ex_documentation = Ok (Some (s "Scenario Outline with a docstring"), Some (s "This is a documentation for the feature file." ++ [10%N] ++ [10%N] ++ s "it can be more than one line long."), [],
  [((s "Greetings come in many forms type = en content = Hello"), Some (s "this is the documentation for the scenario" ++ [10%N] ++ [10%N] ++ s "    it can be more than one line long." ++ [10%N] ++ [10%N] ++ s "    and it can contain <placeholder> that will be replaced by the examples."), [], 6, [((s "Given this file:"), [(s "&{{{'content': 'Greeting:Hello', 'mediaType': 'en'}}}")], 13)]);
   ((s "Greetings come in many forms type = fr content = Bonjour"), Some (s "this is the documentation for the scenario" ++ [10%N] ++ [10%N] ++ s "    it can be more than one line long." ++ [10%N] ++ [10%N] ++ s "    and it can contain <placeholder> that will be replaced by the examples."), [], 6, [((s "Given this file:"), [(s "&{{{'content': 'Greeting:Bonjour', 'mediaType': 'fr'}}}")], 13)])]).
Proof. vm_compute. reflexivity. Qed.

Example rule_sample : suite_view (s "rule_sample.feature") ex_rule_sample = Ok (Some (s "Highlander"), None, [],
  [((s "Only One -- More than one alive"), None, [], 5, [((s "Given there are 3 ninjas"), [], 6); ((s "And there are more than one ninja alive"), [], 7); ((s "When 2 ninjas meet, they will fight"), [], 8); ((s "Then one ninja dies (but not me)"), [], 9); ((s "And there is one ninja less alive"), [], 10)]);
   ((s "Only One -- One alive"), None, [], 12, [((s "Given there is only 1 ninja alive"), [], 13); ((s "Then he (or she) will live forever ;-)"), [], 14)]);
   ((s "Two -- Dead and Reborn as Phoenix"), None, [], 18, [])]).
Proof. vm_compute. reflexivity. Qed.

Example simple_md : suite_view (s "simple.feature.md") ex_simple_md = Ok (Some (s "blah"), None, [],
  [((s "whatever"), None, [], 4, [((s "Given something"), [], 6); ((s "When something else"), [], 7)])]).
Proof. vm_compute. reflexivity. Qed.

(** ** Headers that are regular expressions: what CPython's re does with them *)
Definition header_step (header step : str) : result str := subst_one header (s "v") step.
Example regex_headers :
  map (fun p => header_step (fst p) (snd p))
    [ (s "[z-a]", s "x"); (s "[\s-a]", s "x"); (s "[a", s "x"); (s "a**", s "x"); (s "(", s "x"); (s "a)", s "x"); (s "^*", s "x"); (s "(*)", s "x"); (s "\", s "<\>") ] =
    [ Err EReError; Err EReError; Err EReError; Err EReError; Err EReError; Err EReError; Err EReError; Err EReError; Ok (s "<\>") ] /\
  map (fun p => header_step (fst p) (snd p))
    [ (s "a|b", s "<a b> <b>"); (s "[ab]", s "<a><c>"); (s "[^a]", s "<a><c>"); (s "a.*c", s "<abc><ac>"); (s "]", s "<]>"); (s "{", s "<{>"); (s "a?", s "<><a>"); (s "(?:a|b)*", s "<abab>") ] =
    [ Ok (s "v v <v"); Ok (s "v<c>"); Ok (s "<a>v"); Ok (s "v"); Ok (s "v"); Ok (s "v"); Ok (s "vv"); Ok (s "v") ].
Proof. vm_compute. split; reflexivity. Qed.
