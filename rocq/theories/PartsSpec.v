(** * The parts of a feature, and parts of a text: specification for C05, C11, C19, C47 *)
From Verif Require Import PyStr Types Ast DocSpec.

Definition of_option {A} (o : option A) : list A := match o with Some a => [a] | None => [] end.
(** every scenario, background, step, examples block of a feature *)
Definition feature_scenarios (f : feature) : list scenario := fe_scenarios f ++ flat_map ru_scenarios (fe_rules f).
Definition feature_backgrounds (f : feature) : list background := of_option (fe_background f) ++ flat_map (fun r => of_option (ru_background r)) (fe_rules f).
Definition feature_steps (f : feature) : list step := flat_map bg_steps (feature_backgrounds f) ++ flat_map sc_steps (feature_scenarios f).
Definition feature_examples (f : feature) : list examples := flat_map sc_examples (feature_scenarios f).
(** every tag, table row, doc string *)
Definition feature_tags (f : feature) : list tag :=
  fe_tags f ++ flat_map ru_tags (fe_rules f) ++ flat_map sc_tags (feature_scenarios f) ++ flat_map ex_tags (feature_examples f).
Definition step_tables (x : step) : list datatable := match st_arg x with ATable t => [t] | _ => [] end.
Definition step_docs (x : step) : list docstring := match st_arg x with ADoc ds => [ds] | _ => [] end.
Definition feature_tables (f : feature) : list datatable := flat_map step_tables (feature_steps f).
Definition feature_docs (f : feature) : list docstring := flat_map step_docs (feature_steps f).
Definition example_rows (x : examples) : list row := of_option (ex_header x) ++ ex_body x.
Definition feature_rows (f : feature) : list row := flat_map dt_rows (feature_tables f) ++ flat_map example_rows (feature_examples f).

(** [part] stands in [whole] without gaps *)
Definition within {A} (part whole : list A) : Prop := exists before after, whole = before ++ part ++ after.
