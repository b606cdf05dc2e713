(** * Lines moved to other numbers: specification for C77 (no modelled code)

    A document, a suite, whose lines have got other numbers: [g n] is the new number of line [n]. *)
From Verif Require Import PyStr Types Line DialectData Matcher LineSpec LangSpec Ast DocSpec Compiler Glob Robot.

Section Renumber.
Variable g : nat -> nat.
Definition ren_line (l : nline) : nline := (g (fst l), snd l).
Definition ren_loc (l : location) : location := mkLoc (g (l_line l)) (l_col l).
Definition ren_comment (c : comment) : comment := mkComment (ren_loc (cm_loc c)) (cm_text c).
Definition ren_tag (t : tag) : tag := mkTag (tag_id t) (ren_loc (tag_loc t)) (tag_name t).
Definition ren_cell (c : cell) : cell := mkCell (ren_loc (cell_loc c)) (cell_value c).
Definition ren_row (r : row) : row := mkRow (row_id r) (ren_loc (row_loc r)) (map ren_cell (row_cells r)).
Definition ren_docstring (d : docstring) : docstring := mkDoc (ren_loc (ds_loc d)) (ds_content d) (ds_delimiter d) (ds_media d).
Definition ren_arg (a : steparg) : steparg :=
  match a with ANone => ANone | ATable t => ATable (mkTable (ren_loc (dt_loc t)) (map ren_row (dt_rows t))) | ADoc d => ADoc (ren_docstring d) end.
Definition ren_step (x : step) : step :=
  mkStep (st_id x) (ren_loc (st_loc x)) (st_keyword x) (st_ktype x) (st_text x) (ren_arg (st_arg x)).
Definition ren_background (x : background) : background :=
  mkBackground (bg_id x) (ren_loc (bg_loc x)) (bg_keyword x) (bg_name x) (bg_desc x) (map ren_step (bg_steps x)).
Definition ren_examples (x : examples) : examples :=
  mkExamples (ex_id x) (map ren_tag (ex_tags x)) (ren_loc (ex_loc x)) (ex_keyword x) (ex_name x) (ex_desc x)
    (option_map ren_row (ex_header x)) (map ren_row (ex_body x)).
Definition ren_scenario (x : scenario) : scenario :=
  mkScenario (sc_id x) (map ren_tag (sc_tags x)) (ren_loc (sc_loc x)) (sc_keyword x) (sc_name x) (sc_desc x)
    (map ren_step (sc_steps x)) (map ren_examples (sc_examples x)).
Definition ren_rule (x : rule_ast) : rule_ast :=
  mkRule (ru_id x) (map ren_tag (ru_tags x)) (ren_loc (ru_loc x)) (ru_keyword x) (ru_name x) (ru_desc x)
    (option_map ren_background (ru_background x)) (map ren_scenario (ru_scenarios x)).
Definition ren_feature (x : feature) : feature :=
  mkFeature (map ren_tag (fe_tags x)) (ren_loc (fe_loc x)) (fe_language x) (fe_keyword x) (fe_name x) (fe_desc x)
    (option_map ren_background (fe_background x)) (map ren_scenario (fe_scenarios x)) (map ren_rule (fe_rules x)).
Definition ren_gdoc (d : gdoc) : gdoc := mkGdoc (option_map ren_feature (gd_feature d)) (map ren_comment (gd_comments d)).
(** a test of the suite: its own line and those of its calls *)
Definition ren_call (c : rcall) : rcall := mkCall (rc_name c) (rc_args c) (g (rc_line c)) (rc_col c).
Definition ren_test (t : rtest) : rtest :=
  mkTest (rt_name t) (rt_doc t) (rt_tags t) (map ren_call (rt_calls t)) (g (rt_line t)) (rt_col t).
End Renumber.

(** the lines after line [n] are moved down by [k] lines *)
Definition moved_down (n k l : nat) : nat := if n <? l then l + k else l.
