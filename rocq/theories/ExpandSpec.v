(** * Outlines written out as scenarios: specification for C104 (no modelled code) *)
From Verif Require Import PyStr Types Line Ast Compiler EssenceSpec PickleSpec.

(** the argument of a step, with no place and no id *)
Definition argument_of (a : steparg) : option parg :=
  match a with ANone => None | ATable t => Some (PTable (map values_of (dt_rows t))) | ADoc d => Some (PDoc (ds_content d) (ds_media d)) end.
(** the step [y] is the step [x] with the columns filled in *)
Definition step_copy (cols : list (str * str)) (x y : step) : Prop :=
  st_keyword y = st_keyword x /\ st_ktype y = st_ktype x /\
  (exists a b, st_text x = Some a /\ st_text y = Some b /\ filled cols a b) /\ arg_filled cols (st_arg x) (argument_of (st_arg y)).
Definition row_tags (o : origin) : list tag := match o_row o with None => [] | Some (ex, _, _) => ex_tags ex end.
(** [y] is a scenario without examples; it is the scenario of [o] with the columns of its row filled in and with the tags of its examples *)
Definition copy_of (o : origin) (y : scenario) : Prop :=
  sc_examples y = [] /\ names_of (sc_tags y) = names_of (sc_tags (o_scenario o)) ++ names_of (row_tags o) /\
  (exists a b, sc_name (o_scenario o) = Some a /\ sc_name y = Some b /\ filled (columns o) a b) /\ sc_desc y = sc_desc (o_scenario o) /\
  Forall2 (step_copy (columns o)) (sc_steps (o_scenario o)) (sc_steps y).
(** a copy for each row of an outline, one copy of a scenario without examples *)
Definition written_out (x : scenario) (ys : list scenario) : Prop := Forall2 copy_of (scenario_origins None x) ys.
Definition all_written_out (xs ys : list scenario) : Prop := exists l, Forall2 written_out xs l /\ ys = concat l.
Definition same_background (x y : option background) : Prop :=
  map (fun st => (st_keyword st, step_essence st)) (background_steps x) = map (fun st => (st_keyword st, step_essence st)) (background_steps y).
Definition rule_written_out (x y : rule_ast) : Prop :=
  names_of (ru_tags y) = names_of (ru_tags x) /\ same_background (ru_background y) (ru_background x) /\ all_written_out (ru_scenarios x) (ru_scenarios y).
(** the feature [y] is the feature [x] with its outlines written out *)
Definition feature_written_out (x y : feature) : Prop :=
  names_of (fe_tags y) = names_of (fe_tags x) /\ fe_language y = fe_language x /\ fe_name y = fe_name x /\ fe_desc y = fe_desc x /\
  same_background (fe_background y) (fe_background x) /\ all_written_out (fe_scenarios x) (fe_scenarios y) /\ Forall2 rule_written_out (fe_rules x) (fe_rules y).
(** no row of an outline begins with "And" or "But" *)
Definition no_and_first (f : feature) : Prop :=
  forall o st l, In o (feature_origins f) -> o_row o <> None -> origin_steps f o = st :: l -> st_ktype st <> Some KtConjunction.
