(** * What a suite depends on, and titles replaced: specification for C90 and C91 (no modelled code) *)
From Verif Require Import PyStr Types Line DialectData Matcher LineSpec LangSpec Ast DocSpec PartsSpec Compiler ExampleSpec PartSpec.

(** ** A feature without what its suite does not depend on
    Left out: ids; the places of everything but scenarios and steps; the keywords of the feature, rules, backgrounds and scenarios; the names of the
    feature, rules, backgrounds and examples; the descriptions of rules, backgrounds and examples; the delimiters of doc strings. *)
Definition no_place : location := mkLoc 0 None.
Definition kept_tag (t : tag) : tag := mkTag 0 no_place (tag_name t).
Definition kept_row (r : row) : row := mkRow 0 no_place (map (fun c => mkCell no_place (cell_value c)) (row_cells r)).
Definition kept_arg (a : steparg) : steparg :=
  match a with ANone => ANone | ATable t => ATable (mkTable no_place (map kept_row (dt_rows t))) | ADoc ds => ADoc (mkDoc no_place (ds_content ds) None (ds_media ds)) end.
Definition kept_step (x : step) : step := mkStep 0 (st_loc x) (st_keyword x) (st_ktype x) (st_text x) (kept_arg (st_arg x)).
Definition kept_background (x : background) : background := mkBackground 0 no_place None None [] (map kept_step (bg_steps x)).
Definition kept_examples (x : examples) : examples :=
  mkExamples 0 (map kept_tag (ex_tags x)) no_place (ex_keyword x) None [] (option_map kept_row (ex_header x)) (map kept_row (ex_body x)).
Definition kept_scenario (x : scenario) : scenario :=
  mkScenario 0 (map kept_tag (sc_tags x)) (sc_loc x) None (sc_name x) (sc_desc x) (map kept_step (sc_steps x)) (map kept_examples (sc_examples x)).
Definition kept_rule (x : rule_ast) : rule_ast :=
  mkRule 0 (map kept_tag (ru_tags x)) no_place None None [] (option_map kept_background (ru_background x)) (map kept_scenario (ru_scenarios x)).
Definition kept (x : feature) : feature :=
  mkFeature (map kept_tag (fe_tags x)) no_place (fe_language x) None None (fe_desc x) (option_map kept_background (fe_background x)) (map kept_scenario (fe_scenarios x)) (map kept_rule (fe_rules x)).

(** ** Titles replaced: the part whose title is on line [n] with this place, keyword and name, everything else as it is *)
Section Titles.
Variables (n : nat) (loc : location) (kw name : str).
Definition retitle_feature (x : feature) : feature :=
  if l_line (fe_loc x) =? n then mkFeature (fe_tags x) loc (fe_language x) (Some kw) (Some name) (fe_desc x) (fe_background x) (fe_scenarios x) (fe_rules x) else x.
Definition retitle_rule (x : rule_ast) : rule_ast :=
  if l_line (ru_loc x) =? n then mkRule (ru_id x) (ru_tags x) loc (Some kw) (Some name) (ru_desc x) (ru_background x) (ru_scenarios x) else x.
Definition retitle_background (x : background) : background :=
  if l_line (bg_loc x) =? n then mkBackground (bg_id x) loc (Some kw) (Some name) (bg_desc x) (bg_steps x) else x.
Definition retitle_examples (x : examples) : examples :=
  if l_line (ex_loc x) =? n then mkExamples (ex_id x) (ex_tags x) loc (Some kw) (Some name) (ex_desc x) (ex_header x) (ex_body x) else x.
Definition rules_retitled (x : feature) : feature :=
  mkFeature (fe_tags x) (fe_loc x) (fe_language x) (fe_keyword x) (fe_name x) (fe_desc x) (fe_background x) (fe_scenarios x) (map retitle_rule (fe_rules x)).
End Titles.
Definition feature_title (n : nat) (f : feature) : Prop := l_line (fe_loc f) = n.
Definition rule_title (n : nat) (f : feature) : Prop := Exists (fun r => l_line (ru_loc r) = n) (fe_rules f).
Definition background_title (n : nat) (f : feature) : Prop := Exists (fun b => l_line (bg_loc b) = n) (feature_backgrounds f).
Definition examples_title (n : nat) (f : feature) : Prop := Exists (fun e => l_line (ex_loc e) = n) (feature_examples f).
(** line [n] of [f] is a title of the feature, a rule, a background or examples, [x] is another title of that kind in the dialect [dl], with this keyword and
    name; with [x] in that place [f] is [f'] *)
Definition retitled (dl : dialect) (n : nat) (x kw name : str) (f f' : feature) : Prop :=
  let loc := mkLoc n (Some (indent_of x + 1)) in
  (feature_title n f /\ title_line (d_feature dl) x kw name /\ f' = retitle_feature n loc kw name f) \/
  (rule_title n f /\ title_line (d_rule dl) x kw name /\ f' = rules_retitled n loc kw name f) \/
  (background_title n f /\ title_line (d_background dl) x kw name /\ f' = parts_feature (fun s => s) (retitle_background n loc kw name) f) \/
  (examples_title n f /\ title_line (d_examples dl) x kw name /\ f' = on_feature (retitle_examples n loc kw name) f).
