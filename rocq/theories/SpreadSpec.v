(** * Backgrounds spread over the scenarios: specification for C103 (no modelled code) *)
From Verif Require Import PyStr Types Line Ast PickleSpec PartsSpec.

(** the scenario with the steps [pre] before its own, if it has any *)
Definition led_by (pre : list step) (x : scenario) : scenario :=
  mkScenario (sc_id x) (sc_tags x) (sc_loc x) (sc_keyword x) (sc_name x) (sc_desc x) (match sc_steps x with [] => [] | own => pre ++ own end) (sc_examples x).
Definition spread_rule (pre : list step) (x : rule_ast) : rule_ast :=
  mkRule (ru_id x) (ru_tags x) (ru_loc x) (ru_keyword x) (ru_name x) (ru_desc x) None (map (led_by (pre ++ background_steps (ru_background x))) (ru_scenarios x)).
(** the feature without backgrounds; the steps of the feature's background are put before those of every scenario, the steps of
    a rule's background, after them, before those of every scenario of the rule *)
Definition spread (x : feature) : feature :=
  mkFeature (fe_tags x) (fe_loc x) (fe_language x) (fe_keyword x) (fe_name x) (fe_desc x) None
    (map (led_by (background_steps (fe_background x))) (fe_scenarios x)) (map (spread_rule (background_steps (fe_background x))) (fe_rules x)).

(** the texts of a step in which placeholders are filled in *)
Definition argument_texts (a : steparg) : list str :=
  match a with ANone => [] | ATable t => flat_map (fun r => map cell_value (row_cells r)) (dt_rows t) | ADoc ds => ds_content ds :: of_option (ds_media ds) end.
Definition step_texts (x : step) : list str := of_option (st_text x) ++ argument_texts (st_arg x).
(** the steps of the background of the feature, and of the backgrounds of its rules *)
Definition spread_steps (f : feature) : list step := background_steps (fe_background f) ++ flat_map (fun r => background_steps (ru_background r)) (fe_rules f).
(** no step of a background has a placeholder of a table *)
Definition no_placeholders (f : feature) : Prop :=
  forall o h st x, In o (feature_origins f) -> In h (header_names o) -> In st (spread_steps f) -> In x (step_texts st) -> forall a b, x <> a ++ placeholder h ++ b.
