(** * A feature in other words: specification for C101 (no modelled code) *)
From Verif Require Import PyStr Types Line DialectData Matcher LineSpec LangSpec Ast DocSpec PartsSpec WriteSpec Compiler PickleSpec Robot RobotSpec SuiteSpec.

(** ** Features without their keywords
    Left out: the language, the keywords of titles and steps, ids and places.  Kept: types, names, texts, descriptions, tags, tables, doc strings. *)
Definition wordless_step (x : step) : step := mkStep 0 nowhere None (st_ktype x) (st_text x) (plain_arg (st_arg x)).
Definition wordless_background (x : background) : background := mkBackground 0 nowhere None (bg_name x) (bg_desc x) (map wordless_step (bg_steps x)).
Definition wordless_examples (x : examples) : examples :=
  mkExamples 0 (map plain_tag (ex_tags x)) nowhere None (ex_name x) (ex_desc x) (option_map plain_row (ex_header x)) (map plain_row (ex_body x)).
Definition wordless_scenario (x : scenario) : scenario :=
  mkScenario 0 (map plain_tag (sc_tags x)) nowhere None (sc_name x) (sc_desc x) (map wordless_step (sc_steps x)) (map wordless_examples (sc_examples x)).
Definition wordless_rule (x : rule_ast) : rule_ast :=
  mkRule 0 (map plain_tag (ru_tags x)) nowhere None (ru_name x) (ru_desc x) (option_map wordless_background (ru_background x)) (map wordless_scenario (ru_scenarios x)).
Definition wordless (x : feature) : feature :=
  mkFeature (map plain_tag (fe_tags x)) nowhere None None (fe_name x) (fe_desc x) (option_map wordless_background (fe_background x)) (map wordless_scenario (fe_scenarios x)) (map wordless_rule (fe_rules x)).

(** ** Words: a language, a keyword for each kind of title and one for each type of step *)
Record words := mkWords { w_language : str; w_feature : str; w_rule : str; w_background : str; w_scenario : str; w_outline : str; w_examples : str; w_step : ktype -> str }.
(** [k] is a step keyword of the dialect, of the type [t], that no keyword listed before it hides *)
Definition step_word (d : dialect) (t : ktype) (k : str) : Prop :=
  LineSpec.step_type d k = t /\ exists before after, all_step_keywords d = before ++ k :: after /\ Forall (fun k' => startswith k' k = false) before.
(** the words are keywords of the dialect; those for steps of the types [ts] *)
Definition words_of (d : dialect) (ts : list ktype) (w : words) : Prop :=
  for_name (w_language w) = Some d /\ In (w_feature w) (d_feature d) /\ In (w_rule w) (d_rule d) /\ In (w_background w) (d_background d) /\
  In (w_scenario w) (scenario_keywords d) /\ In (w_outline w) (scenario_keywords d) /\ In (w_examples w) (d_examples d) /\
  Forall (fun t => step_word d t (w_step w t)) ts.
Definition all_types : list ktype := [KtContext; KtAction; KtOutcome; KtConjunction; KtUnknown].
(** the types of the steps of a feature *)
Definition types_of (f : feature) : list ktype := flat_map (fun x => of_option (st_ktype x)) (feature_steps f).

(** ** Translation: every keyword replaced *)
Section Words.
Variable w : words.
Definition say_step (x : step) : step := mkStep (st_id x) (st_loc x) (option_map (w_step w) (st_ktype x)) (st_ktype x) (st_text x) (st_arg x).
Definition say_background (x : background) : background := mkBackground (bg_id x) (bg_loc x) (Some (w_background w)) (bg_name x) (bg_desc x) (map say_step (bg_steps x)).
Definition say_examples (x : examples) : examples := mkExamples (ex_id x) (ex_tags x) (ex_loc x) (Some (w_examples w)) (ex_name x) (ex_desc x) (ex_header x) (ex_body x).
Definition say_scenario (x : scenario) : scenario :=
  mkScenario (sc_id x) (sc_tags x) (sc_loc x) (Some (match sc_examples x with [] => w_scenario w | _ => w_outline w end)) (sc_name x) (sc_desc x) (map say_step (sc_steps x)) (map say_examples (sc_examples x)).
Definition say_rule (x : rule_ast) : rule_ast :=
  mkRule (ru_id x) (ru_tags x) (ru_loc x) (Some (w_rule w)) (ru_name x) (ru_desc x) (option_map say_background (ru_background x)) (map say_scenario (ru_scenarios x)).
Definition in_words (x : feature) : feature :=
  mkFeature (fe_tags x) (fe_loc x) (Some (w_language w)) (Some (w_feature w)) (fe_name x) (fe_desc x) (option_map say_background (fe_background x)) (map say_scenario (fe_scenarios x)) (map say_rule (fe_rules x)).
End Words.
(** in the dialect, too, no line of a description ends it *)
Definition prose_fits (d : dialect) (f : feature) : Prop :=
  description_ok d InHeader (fe_desc f) /\ Forall (fun x => description_ok d InHeader (ru_desc x)) (fe_rules f) /\
  Forall (fun x => description_ok d InBackground (bg_desc x)) (feature_backgrounds f) /\ Forall (fun x => description_ok d InScenario (sc_desc x)) (feature_scenarios f) /\
  Forall (fun x => description_ok d InExamples (ex_desc x)) (feature_examples f).

(** ** Suites *)
Inductive Forall4 {A B C D} (R : A -> B -> C -> D -> Prop) : list A -> list B -> list C -> list D -> Prop :=
| F4_nil : Forall4 R [] [] [] []
| F4_cons a b c d la lb lc ld : R a b c d -> Forall4 R la lb lc ld -> Forall4 R (a :: la) (b :: lb) (c :: lc) (d :: ld).
(** the calls for a step and the same step in other words: the same arguments; the same name, but for the keywords in front of both or of none *)
Definition same_call (st st' : step) (c c' : rcall) : Prop :=
  rc_args c' = rc_args c /\
  (rc_name c' = rc_name c \/ exists kw kw' text, st_keyword st = Some kw /\ st_keyword st' = Some kw' /\ rc_name c = kw ++ text /\ rc_name c' = kw' ++ text).
(** what is put after the name of the test of a row: its values if the table has the keyword Examples *)
Definition row_note (o : origin) : str :=
  match o_row o with None => [] | Some (ex, _, _) => match ex_keyword ex with Some kw => if str_eqb kw (s "Examples") then suffix_of (columns o) else [] | None => [] end end.
(** the tests for a scenario or row and the same one in other words *)
Definition same_test (f f' : feature) (o o' : origin) (t t' : rtest) : Prop :=
  (exists name, rt_name t = name ++ row_note o /\ rt_name t' = name ++ row_note o') /\ rt_doc t' = rt_doc t /\ rt_tags t' = rt_tags t /\
  Forall4 same_call (origin_steps f o) (origin_steps f' o') (rt_calls t) (rt_calls t').
(** the suites of a feature and the same one in other words; the failures *)
Definition same_in_words (f f' : feature) (r r' : result (rfile * option str)) : Prop :=
  match r, r' with
  | Ok (RSuite x, n), Ok (RSuite x', n') =>
      rs_doc x' = rs_doc x /\ rs_library x' = rs_library x /\ rs_resources x' = rs_resources x /\ rs_metadata_tags x' = rs_metadata_tags x /\ rs_test_tags x' = rs_test_tags x /\
      n' = n /\ Forall4 (same_test f f') (feature_origins f) (feature_origins f') (rs_tests x) (rs_tests x')
  | Ok (RErrors l, n), Ok (RErrors l', n') => l' = l /\ n' = n
  | _, _ => False
  end.
