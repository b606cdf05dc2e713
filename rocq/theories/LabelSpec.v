(** * Tags and what depends on them: specification for C93 and C94 (no modelled code) *)
From Verif Require Import PyStr Types Line DialectData Matcher LineSpec LangSpec Ast DocSpec PartsSpec Compiler Glob Robot PickleSpec EssenceSpec MiddleSpec ExampleSpec PartSpec TitleSpec.

(** ** A feature without any tags *)
Definition tagless_examples (x : examples) : examples := mkExamples (ex_id x) [] (ex_loc x) (ex_keyword x) (ex_name x) (ex_desc x) (ex_header x) (ex_body x).
Definition tagless_scenario (x : scenario) : scenario :=
  mkScenario (sc_id x) [] (sc_loc x) (sc_keyword x) (sc_name x) (sc_desc x) (sc_steps x) (map tagless_examples (sc_examples x)).
Definition tagless_rule (x : rule_ast) : rule_ast :=
  mkRule (ru_id x) [] (ru_loc x) (ru_keyword x) (ru_name x) (ru_desc x) (ru_background x) (map tagless_scenario (ru_scenarios x)).
Definition tagless (x : feature) : feature :=
  mkFeature [] (fe_loc x) (fe_language x) (fe_keyword x) (fe_name x) (fe_desc x) (fe_background x) (map tagless_scenario (fe_scenarios x)) (map tagless_rule (fe_rules x)).
(** [f'] is [f] with its line [n] on line [g n], but for tags and for what a suite does not depend on *)
Definition same_but_tags (g : nat -> nat) (f f' : feature) : Prop := kept (tagless f') = kept (tagless (ren_feature g f)).
(** the suite [x'] is [x] with the lines moved by [g], but for tags *)
Definition suite_but_tags (g : nat -> nat) (x x' : rsuite) : Prop :=
  rs_doc x' = rs_doc x /\ rs_library x' = rs_library x /\ rs_resources x' = rs_resources x /\ Forall2 (fun t t' => t' = with_tags (rt_tags t') (ren_test g t)) (rs_tests x) (rs_tests x').

(** ** Tags more, for the part whose title is on line [n] *)
Section More.
Variables (n : nat) (tags : list tag).
Definition if_here (l : location) (x : list tag) : list tag := if l_line l =? n then x ++ tags else x.
Definition label_examples (x : examples) : examples := mkExamples (ex_id x) (if_here (ex_loc x) (ex_tags x)) (ex_loc x) (ex_keyword x) (ex_name x) (ex_desc x) (ex_header x) (ex_body x).
Definition label_scenario (x : scenario) : scenario :=
  mkScenario (sc_id x) (if_here (sc_loc x) (sc_tags x)) (sc_loc x) (sc_keyword x) (sc_name x) (sc_desc x) (sc_steps x) (map label_examples (sc_examples x)).
Definition label_rule (x : rule_ast) : rule_ast :=
  mkRule (ru_id x) (if_here (ru_loc x) (ru_tags x)) (ru_loc x) (ru_keyword x) (ru_name x) (ru_desc x) (ru_background x) (map label_scenario (ru_scenarios x)).
Definition label_feature (x : feature) : feature :=
  mkFeature (if_here (fe_loc x) (fe_tags x)) (fe_loc x) (fe_language x) (fe_keyword x) (fe_name x) (fe_desc x) (fe_background x) (map label_scenario (fe_scenarios x)) (map label_rule (fe_rules x)).
End More.
(** line [n] is the title of the feature, a rule, a scenario or examples *)
Definition scenario_title (n : nat) (f : feature) : Prop := Exists (fun x => l_line (sc_loc x) = n) (feature_scenarios f).
Definition labelled_line (n : nat) (f : feature) : Prop := feature_title n f \/ rule_title n f \/ scenario_title n f \/ examples_title n f.
(** the lines from line [n] on moved down, and the tags [tags] for the part that was on line [n] *)
Definition labels_added (n : nat) (tags : list tag) (d : gdoc) : gdoc :=
  let d1 := ren_gdoc (moved_down (n - 1) 1) d in mkGdoc (option_map (label_feature (S n) tags) (gd_feature d1)) (gd_comments d1).
(** the tags of a test that comes from [o], with the words [names] after those of the rule, scenario or examples on line [n] *)
Definition words_here (n : nat) (names : list str) (l : location) (x : list str) : list str := if l_line l =? n then x ++ names else x.
Definition words_of (l : list tag) : list str := map (@tl char) (names_of l).
Definition test_words (n : nat) (names : list str) (o : origin) : list str :=
  match o_rule o with None => [] | Some ru => words_here n names (ru_loc ru) (words_of (ru_tags ru)) end ++
  words_here n names (sc_loc (o_scenario o)) (words_of (sc_tags (o_scenario o))) ++
  match o_row o with None => [] | Some (ex, _, _) => words_here n names (ex_loc ex) (words_of (ex_tags ex)) end.
(** the test [t'] is [t], which comes from [o], with its lines from line [n] on moved down and those tags *)
Definition test_labelled (n : nat) (names : list str) (o : origin) (t t' : rtest) : Prop :=
  rt_tags t = test_words n [] o /\ t' = with_tags (test_words n names o) (ren_test (moved_down (n - 1) 1) t).
