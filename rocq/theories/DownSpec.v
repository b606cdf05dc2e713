(** * Tags moved down: specification for C106 (no modelled code) *)
From Verif Require Import PyStr Types Line Ast.

(** the examples with the tags [pre] before their own *)
Definition tagged (pre : list tag) (x : examples) : examples :=
  mkExamples (ex_id x) (pre ++ ex_tags x) (ex_loc x) (ex_keyword x) (ex_name x) (ex_desc x) (ex_header x) (ex_body x).
(** the tags [pre] and those of the scenario stand at the examples of an outline, or at the scenario *)
Definition down_scenario (pre : list tag) (x : scenario) : scenario :=
  mkScenario (sc_id x) (match sc_examples x with [] => pre ++ sc_tags x | _ => [] end) (sc_loc x) (sc_keyword x) (sc_name x) (sc_desc x) (sc_steps x) (map (tagged (pre ++ sc_tags x)) (sc_examples x)).
Definition down_rule (x : rule_ast) : rule_ast :=
  mkRule (ru_id x) [] (ru_loc x) (ru_keyword x) (ru_name x) (ru_desc x) (ru_background x) (map (down_scenario (ru_tags x)) (ru_scenarios x)).
(** the feature with the tags of its rules and outlines moved down to scenarios and examples *)
Definition tags_down (x : feature) : feature :=
  mkFeature (fe_tags x) (fe_loc x) (fe_language x) (fe_keyword x) (fe_name x) (fe_desc x) (fe_background x) (map (down_scenario []) (fe_scenarios x)) (map down_rule (fe_rules x)).
