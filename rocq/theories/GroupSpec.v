(** * Cases in other groups: specification for C105 (no modelled code) *)
From Verif Require Import PyStr Types Line Ast EssenceSpec PickleSpec SuiteSpec.

Definition step_view (x : step) := (st_keyword x, step_essence x).
(** the row of a case: keyword of its examples, header, values *)
Definition row_view (o : origin) := match o_row o with None => None | Some (ex, h, r) => Some (ex_keyword ex, values_of h, values_of r) end.
(** what a case (a scenario, or an outline with one of its rows) says, wherever it stands: name, description, tags below the feature, row, steps of the
    backgrounds, own steps *)
Definition case_view (f : feature) (o : origin) :=
  (sc_name (o_scenario o), sc_desc (o_scenario o), names_of (lower_tags o), row_view o, map step_view (inherited_steps f o), map step_view (sc_steps (o_scenario o))).
(** what a feature says: its tags, language, name and description, and its cases in order *)
Definition feature_view (f : feature) := (names_of (fe_tags f), fe_language f, fe_name f, fe_desc f, map (case_view f) (feature_origins f)).

Definition with_examples (x : scenario) (l : list examples) : scenario :=
  mkScenario (sc_id x) (sc_tags x) (sc_loc x) (sc_keyword x) (sc_name x) (sc_desc x) (sc_steps x) l.
Definition with_body (x : examples) (l : list row) : examples :=
  mkExamples (ex_id x) (ex_tags x) (ex_loc x) (ex_keyword x) (ex_name x) (ex_desc x) (ex_header x) l.
Definition with_scenarios (f : feature) (l : list scenario) : feature :=
  mkFeature (fe_tags f) (fe_loc f) (fe_language f) (fe_keyword f) (fe_name f) (fe_desc f) (fe_background f) l (fe_rules f).
Definition with_parts (f : feature) (l : list scenario) (r : list rule_ast) : feature :=
  mkFeature (fe_tags f) (fe_loc f) (fe_language f) (fe_keyword f) (fe_name f) (fe_desc f) (fe_background f) l r.
