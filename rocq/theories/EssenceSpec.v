(** * What the tests of a feature depend on: specification for C61 and C62 (no modelled code)

    The tests of a feature depend on its language, its tags, its backgrounds' steps, its scenarios and
    its rules; of a step on its type, text and argument; of an examples block on its tags, header
    and rows.  Not on ids, places, descriptions, keywords, delimiters, the names of features, rules,
    backgrounds and examples, or comments. *)
From Verif Require Import PyStr Types Line Ast Compiler.

Definition names_of (l : list tag) : list str := map tag_name l.
Definition values_of (r : row) : list str := map cell_value (row_cells r).
Definition argument_essence (a : steparg) : option (list (list str) + str * option str) :=
  match a with
  | ANone => None
  | ATable t => Some (inl (map values_of (dt_rows t)))
  | ADoc d => Some (inr (ds_content d, ds_media d))
  end.
Definition step_essence (x : step) := (st_ktype x, st_text x, argument_essence (st_arg x)).
Definition background_essence (x : background) := map step_essence (bg_steps x).
Definition examples_essence (x : examples) := (names_of (ex_tags x), option_map values_of (ex_header x), map values_of (ex_body x)).
Definition scenario_essence (x : scenario) :=
  (names_of (sc_tags x), sc_name x, map step_essence (sc_steps x), map examples_essence (sc_examples x)).
Definition rule_essence (x : rule_ast) :=
  (names_of (ru_tags x), option_map background_essence (ru_background x), map scenario_essence (ru_scenarios x)).
Definition feature_essence (x : feature) :=
  (names_of (fe_tags x), fe_language x, option_map background_essence (fe_background x), map scenario_essence (fe_scenarios x), map rule_essence (fe_rules x)).
Definition essence (d : gdoc) := option_map feature_essence (gd_feature d).

(** a pickle without its ids *)
Definition pickle_essence (p : pickle) :=
  (pk_name p, pk_language p, map pt_name (pk_tags p), map (fun q => (ps_type q, ps_text q, ps_arg q)) (pk_steps p)).
