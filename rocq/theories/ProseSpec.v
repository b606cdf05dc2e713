(** * Descriptions and what depends on them: specification for C95 and C96 (no modelled code) *)
From Verif Require Import PyStr Types Line DialectData Matcher LineSpec LangSpec Ast DocSpec PartsSpec Compiler Glob Robot PickleSpec EssenceSpec MiddleSpec ExampleSpec PartSpec TitleSpec.

(** ** A feature without any descriptions (those of rules, backgrounds and examples are left out by [kept]) *)
Definition proseless_scenario (x : scenario) : scenario := mkScenario (sc_id x) (sc_tags x) (sc_loc x) (sc_keyword x) (sc_name x) [] (sc_steps x) (sc_examples x).
Definition proseless_rule (x : rule_ast) : rule_ast :=
  mkRule (ru_id x) (ru_tags x) (ru_loc x) (ru_keyword x) (ru_name x) (ru_desc x) (ru_background x) (map proseless_scenario (ru_scenarios x)).
Definition proseless (x : feature) : feature :=
  mkFeature (fe_tags x) (fe_loc x) (fe_language x) (fe_keyword x) (fe_name x) [] (fe_background x) (map proseless_scenario (fe_scenarios x)) (map proseless_rule (fe_rules x)).
(** [f'] is [f] with its line [n] on line [g n], but for descriptions and for what a suite does not depend on *)
Definition same_but_prose (g : nat -> nat) (f f' : feature) : Prop := kept (proseless f') = kept (proseless (ren_feature g f)).
Definition with_doc (doc : option str) (t : rtest) : rtest := mkTest (rt_name t) doc (rt_tags t) (rt_calls t) (rt_line t) (rt_col t).
(** the suite [x'] is [x] with the lines moved by [g], but for documentation *)
Definition suite_but_docs (g : nat -> nat) (x x' : rsuite) : Prop :=
  rs_library x' = rs_library x /\ rs_resources x' = rs_resources x /\ rs_metadata_tags x' = rs_metadata_tags x /\ rs_test_tags x' = rs_test_tags x /\
  Forall2 (fun t t' => t' = with_doc (rt_doc t') (ren_test g t)) (rs_tests x) (rs_tests x').

(** ** A line more in the description of the part whose title is on line [n]: it comes first; white space [w] is between it and what was there *)
Section More.
Variables (n : nat) (x w : str).
Definition desc_here (l : location) (desc : str) : str := if l_line l =? n then x ++ w ++ desc else desc.
Definition tell_background (b : background) : background := mkBackground (bg_id b) (bg_loc b) (bg_keyword b) (bg_name b) (desc_here (bg_loc b) (bg_desc b)) (bg_steps b).
Definition tell_examples (e : examples) : examples := mkExamples (ex_id e) (ex_tags e) (ex_loc e) (ex_keyword e) (ex_name e) (desc_here (ex_loc e) (ex_desc e)) (ex_header e) (ex_body e).
Definition tell_scenario (e : scenario) : scenario :=
  mkScenario (sc_id e) (sc_tags e) (sc_loc e) (sc_keyword e) (sc_name e) (desc_here (sc_loc e) (sc_desc e)) (sc_steps e) (map tell_examples (sc_examples e)).
Definition tell_rule (e : rule_ast) : rule_ast :=
  mkRule (ru_id e) (ru_tags e) (ru_loc e) (ru_keyword e) (ru_name e) (desc_here (ru_loc e) (ru_desc e)) (option_map tell_background (ru_background e)) (map tell_scenario (ru_scenarios e)).
Definition tell_feature (e : feature) : feature :=
  mkFeature (fe_tags e) (fe_loc e) (fe_language e) (fe_keyword e) (fe_name e) (desc_here (fe_loc e) (fe_desc e)) (option_map tell_background (fe_background e)) (map tell_scenario (fe_scenarios e)) (map tell_rule (fe_rules e)).
End More.
(** line [n] is a title, and the line [x] does not end a description after it *)
Definition tellable (d : dialect) (n : nat) (x : str) (f : feature) : Prop :=
  (feature_title n f /\ ~ ends_description d InHeader x) \/ (rule_title n f /\ ~ ends_description d InHeader x) \/
  (background_title n f /\ ~ ends_description d InBackground x) \/
  (Exists (fun e => l_line (sc_loc e) = n) (feature_scenarios f) /\ ~ ends_description d InScenario x) \/ (examples_title n f /\ ~ ends_description d InExamples x).
