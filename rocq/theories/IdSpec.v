(** * The identifiers of a document: specification for C06 and C18 *)
From Verif Require Import PyStr Types Line Ast.

(** all identifiers in a document *)
Definition tag_ids (l : list tag) : list nat := map tag_id l.
Definition row_ids (l : list row) : list nat := map row_id l.
Definition step_ids (x : step) : list nat :=
  st_id x :: match st_arg x with ATable t => row_ids (dt_rows t) | _ => [] end.
Definition background_ids (x : background) : list nat := bg_id x :: flat_map step_ids (bg_steps x).
Definition examples_ids (x : examples) : list nat :=
  ex_id x :: tag_ids (ex_tags x) ++ match ex_header x with Some r => [row_id r] | None => [] end ++ row_ids (ex_body x).
Definition scenario_ids (x : scenario) : list nat :=
  sc_id x :: tag_ids (sc_tags x) ++ flat_map step_ids (sc_steps x) ++ flat_map examples_ids (sc_examples x).
Definition opt_ids {A} (f : A -> list nat) (x : option A) : list nat := match x with Some a => f a | None => [] end.
Definition rule_ids (x : rule_ast) : list nat :=
  ru_id x :: tag_ids (ru_tags x) ++ opt_ids background_ids (ru_background x) ++ flat_map scenario_ids (ru_scenarios x).
Definition feature_ids (x : feature) : list nat :=
  tag_ids (fe_tags x) ++ opt_ids background_ids (fe_background x) ++ flat_map scenario_ids (fe_scenarios x) ++
  flat_map rule_ids (fe_rules x).
Definition doc_ids (d : gdoc) : list nat := opt_ids feature_ids (gd_feature d).

(** the same document with [k] added to every identifier *)
Section Shift.
Context (k : nat).
Definition sh_tag (x : tag) := mkTag (tag_id x + k) (tag_loc x) (tag_name x).
Definition sh_row (x : row) := mkRow (row_id x + k) (row_loc x) (row_cells x).
Definition sh_table (x : datatable) := mkTable (dt_loc x) (map sh_row (dt_rows x)).
Definition sh_arg (x : steparg) := match x with ATable t => ATable (sh_table t) | _ => x end.
Definition sh_step (x : step) := mkStep (st_id x + k) (st_loc x) (st_keyword x) (st_ktype x) (st_text x) (sh_arg (st_arg x)).
Definition sh_background (x : background) :=
  mkBackground (bg_id x + k) (bg_loc x) (bg_keyword x) (bg_name x) (bg_desc x) (map sh_step (bg_steps x)).
Definition sh_examples (x : examples) :=
  mkExamples (ex_id x + k) (map sh_tag (ex_tags x)) (ex_loc x) (ex_keyword x) (ex_name x) (ex_desc x)
    (option_map sh_row (ex_header x)) (map sh_row (ex_body x)).
Definition sh_scenario (x : scenario) :=
  mkScenario (sc_id x + k) (map sh_tag (sc_tags x)) (sc_loc x) (sc_keyword x) (sc_name x) (sc_desc x)
    (map sh_step (sc_steps x)) (map sh_examples (sc_examples x)).
Definition sh_rule (x : rule_ast) :=
  mkRule (ru_id x + k) (map sh_tag (ru_tags x)) (ru_loc x) (ru_keyword x) (ru_name x) (ru_desc x)
    (option_map sh_background (ru_background x)) (map sh_scenario (ru_scenarios x)).
Definition sh_feature (x : feature) :=
  mkFeature (map sh_tag (fe_tags x)) (fe_loc x) (fe_language x) (fe_keyword x) (fe_name x) (fe_desc x)
    (option_map sh_background (fe_background x)) (map sh_scenario (fe_scenarios x)) (map sh_rule (fe_rules x)).
Definition sh_doc (d : gdoc) := mkGdoc (option_map sh_feature (gd_feature d)) (gd_comments d).
End Shift.
