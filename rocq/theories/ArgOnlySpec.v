(** * Step arguments and what depends on them: specification for C97 (no modelled code) *)
From Verif Require Import PyStr Types Line DialectData Matcher LineSpec LangSpec Ast DocSpec PartsSpec Compiler Glob Robot PickleSpec EssenceSpec MiddleSpec ExampleSpec PartSpec TitleSpec.

(** ** A feature without any tables and doc strings of steps *)
Definition argless_step (x : step) : step := mkStep (st_id x) (st_loc x) (st_keyword x) (st_ktype x) (st_text x) ANone.
Definition argless_background (x : background) : background := mkBackground (bg_id x) (bg_loc x) (bg_keyword x) (bg_name x) (bg_desc x) (map argless_step (bg_steps x)).
Definition argless_scenario (x : scenario) : scenario :=
  mkScenario (sc_id x) (sc_tags x) (sc_loc x) (sc_keyword x) (sc_name x) (sc_desc x) (map argless_step (sc_steps x)) (sc_examples x).
Definition argless_rule (x : rule_ast) : rule_ast :=
  mkRule (ru_id x) (ru_tags x) (ru_loc x) (ru_keyword x) (ru_name x) (ru_desc x) (option_map argless_background (ru_background x)) (map argless_scenario (ru_scenarios x)).
Definition argless (x : feature) : feature :=
  mkFeature (fe_tags x) (fe_loc x) (fe_language x) (fe_keyword x) (fe_name x) (fe_desc x) (option_map argless_background (fe_background x)) (map argless_scenario (fe_scenarios x)) (map argless_rule (fe_rules x)).
(** [f'] is [f] with its line [n] on line [g n], but for the arguments of steps and for what a suite does not depend on *)
Definition same_but_args (g : nat -> nat) (f f' : feature) : Prop := kept (argless f') = kept (argless (ren_feature g f)).

(** ** Suites *)
Definition with_args (args : list str) (c : rcall) : rcall := mkCall (rc_name c) args (rc_line c) (rc_col c).
(** the test [t'] is [t] with the lines moved by [g], but for the arguments of its calls *)
Definition test_but_args (g : nat -> nat) (t t' : rtest) : Prop :=
  t' = with_calls (rt_calls t') (ren_test g t) /\ Forall2 (fun c c' => c' = with_args (rc_args c') (ren_call g c)) (rt_calls t) (rt_calls t').
(** a test [t] of the origin [o] of [f], a test [t'] of the origin [o'] of [f']: calls of steps whose arguments say the same have the same arguments *)
Definition same_args_kept (f f' : feature) (q q' : origin * rtest) : Prop :=
  let calls f (q : origin * rtest) := combine (origin_steps f (fst q)) (rt_calls (snd q)) in
  Forall2 (fun y y' : step * rcall => argument_essence (st_arg (fst y)) = argument_essence (st_arg (fst y')) -> rc_args (snd y') = rc_args (snd y)) (calls f q) (calls f' q').
