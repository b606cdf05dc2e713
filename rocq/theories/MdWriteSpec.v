(** * Features as Markdown texts: specification for C102 (no modelled code) *)
From Verif Require Import PyStr Types Line DialectData Matcher LineSpec LangSpec Ast DocSpec PartsSpec WriteSpec.
From Verif Require MdSpec TransSpec.

(** ** Writing: headers for titles, bullets for steps, back quotes around tags; rows and doc strings as in classic files *)
Definition md_title (level : nat) (keyword name : option str) : str := repeat ch_hash level ++ s " " ++ title_text keyword name.
Definition md_bullet (d : dialect) (x : step) : str := s "* " ++ step_text d x.
Definition md_tag_lines (tags : list tag) : list str := match tags with [] => [] | _ => [flat_map (fun t => s "`" ++ tag_name t ++ s "` ") tags] end.
Section Write.
Variable d : dialect.
Definition md_step_lines (x : step) : list str := md_bullet d x :: arg_lines (st_arg x).
Definition md_background_lines (x : background) : list str := md_title 2 (bg_keyword x) (bg_name x) :: flat_map md_step_lines (bg_steps x).
Definition md_examples_lines (x : examples) : list str :=
  md_tag_lines (ex_tags x) ++ md_title 4 (ex_keyword x) (ex_name x) :: map row_text_of (match ex_header x with Some h => h :: ex_body x | None => [] end).
Definition md_scenario_lines (x : scenario) : list str :=
  md_tag_lines (sc_tags x) ++ md_title 3 (sc_keyword x) (sc_name x) :: flat_map md_step_lines (sc_steps x) ++ flat_map md_examples_lines (sc_examples x).
Definition md_rule_lines (x : rule_ast) : list str :=
  md_tag_lines (ru_tags x) ++ md_title 2 (ru_keyword x) (ru_name x) :: opt_lines md_background_lines (ru_background x) ++ flat_map md_scenario_lines (ru_scenarios x).
Definition md_feature_lines (x : feature) : list str :=
  md_tag_lines (fe_tags x) ++ md_title 1 (fe_keyword x) (fe_name x) :: opt_lines md_background_lines (fe_background x) ++ flat_map md_scenario_lines (fe_scenarios x) ++ flat_map md_rule_lines (fe_rules x).
End Write.
Definition markdown_text (d : dialect) (x : feature) : str := flat_map (fun l => l ++ [ch_nl]) (md_feature_lines d x).

(** ** Features that can be written so: without descriptions, which Markdown has none of, and without what Markdown reads otherwise *)
(** the line does not look like one with tags *)
Definition no_tag_in (x : str) : Prop := ~ MdSpec.has_md_tag (x ++ [ch_nl]).
(** tags have a name, without back quotes *)
Definition md_tag_ok (t : tag) : Prop := tag_name t <> [ch_at] /\ ~ In ch_btick (tag_name t).
(** no cell looks like one of a rule of dashes *)
Definition md_row_ok (r : row) : Prop := no_tag_in (row_text_of r) /\ Forall (fun c => ~ MdSpec.separator_cell (cell_value c)) (row_cells r).
(** the word after the back quotes that begin a doc string does not begin with another one *)
Definition md_arg_ok (a : steparg) : Prop :=
  match a with
  | ANone => True
  | ATable t => Forall md_row_ok (dt_rows t)
  | ADoc ds => match ds_media ds with Some (c :: _) => c <> ch_btick | _ => True end
  end.
Section Ok.
Variable d : dialect.
Definition md_step_ok (x : step) : Prop := no_tag_in (md_bullet d x) /\ md_arg_ok (st_arg x).
Definition md_background_ok (x : background) : Prop := bg_desc x = [] /\ no_tag_in (md_title 2 (bg_keyword x) (bg_name x)) /\ Forall md_step_ok (bg_steps x).
Definition md_examples_ok (x : examples) : Prop :=
  ex_desc x = [] /\ Forall md_tag_ok (ex_tags x) /\ no_tag_in (md_title 4 (ex_keyword x) (ex_name x)) /\ Forall md_row_ok (of_option (ex_header x) ++ ex_body x).
Definition md_scenario_ok (x : scenario) : Prop :=
  sc_desc x = [] /\ Forall md_tag_ok (sc_tags x) /\ no_tag_in (md_title 3 (sc_keyword x) (sc_name x)) /\ Forall md_step_ok (sc_steps x) /\ Forall md_examples_ok (sc_examples x).
Definition md_rule_ok (x : rule_ast) : Prop :=
  ru_desc x = [] /\ Forall md_tag_ok (ru_tags x) /\ no_tag_in (md_title 2 (ru_keyword x) (ru_name x)) /\ Forall md_background_ok (of_option (ru_background x)) /\ Forall md_scenario_ok (ru_scenarios x).
Definition md_feature_ok (x : feature) : Prop :=
  fe_desc x = [] /\ Forall md_tag_ok (fe_tags x) /\ no_tag_in (md_title 1 (fe_keyword x) (fe_name x)) /\ Forall md_background_ok (of_option (fe_background x)) /\
  Forall md_scenario_ok (fe_scenarios x) /\ Forall md_rule_ok (fe_rules x).
End Ok.

(** ** The same feature: all but ids and places is the same, and the type of steps whose keyword belongs to several groups *)
Definition same_written (d : dialect) (x y : feature) : Prop := plain (TransSpec.plain_feature d x) = plain (TransSpec.plain_feature d y).
