(** * One line more in a scenario or a background: specification for C85 and C86 (no modelled code) *)
From Verif Require Import PyStr Types Line DialectData Matcher LineSpec LangSpec Ast DocSpec PartsSpec Compiler Glob Robot PickleSpec MiddleSpec.

(** ** A document with its scenarios changed by [hs] and its backgrounds by [hb], everything else as it is *)
Section Change.
Variables (hs : scenario -> scenario) (hb : background -> background).
Definition parts_rule (x : rule_ast) : rule_ast :=
  mkRule (ru_id x) (ru_tags x) (ru_loc x) (ru_keyword x) (ru_name x) (ru_desc x) (option_map hb (ru_background x)) (map hs (ru_scenarios x)).
Definition parts_feature (x : feature) : feature :=
  mkFeature (fe_tags x) (fe_loc x) (fe_language x) (fe_keyword x) (fe_name x) (fe_desc x) (option_map hb (fe_background x)) (map hs (fe_scenarios x)) (map parts_rule (fe_rules x)).
Definition on_parts (d : gdoc) : gdoc := mkGdoc (option_map parts_feature (gd_feature d)) (gd_comments d).
End Change.
(** some scenario of the document, of the feature or of one of its rules, is [Qs], or some background is [Qb] *)
Section Some.
Variables (Qs : scenario -> Prop) (Qb : background -> Prop).
Definition opt_some (x : option background) : Prop := match x with Some b => Qb b | None => False end.
Definition rule_some (x : rule_ast) : Prop := opt_some (ru_background x) \/ Exists Qs (ru_scenarios x).
Definition feature_some (x : feature) : Prop := opt_some (fe_background x) \/ Exists Qs (fe_scenarios x) \/ Exists rule_some (fe_rules x).
Definition some_part (d : gdoc) : Prop := match gd_feature d with Some f => feature_some f | None => False end.
End Some.

(** ** Tags more *)
(** the title of the scenario is on line [n] *)
Definition titled (n : nat) (x : scenario) : Prop := l_line (sc_loc x) = n.
Definition more_tags (n : nat) (tags : list tag) (x : scenario) : scenario :=
  mkScenario (sc_id x) (if l_line (sc_loc x) =? n then sc_tags x ++ tags else sc_tags x) (sc_loc x) (sc_keyword x) (sc_name x) (sc_desc x) (sc_steps x) (sc_examples x).
(** the lines from line [n] on moved down, and the tags [tags] for the scenario that was on line [n] *)
Definition tags_added (n : nat) (tags : list tag) (d : gdoc) : gdoc :=
  on_parts (more_tags (S n) tags) (fun b => b) (ren_gdoc (moved_down (n - 1) 1) d).
(** the test [t'] is [t] with its lines from line [n] on moved down and, if it is a test of the scenario on line [n], with the tags [names] after
    those of its scenario *)
Definition with_tags (tags : list str) (t : rtest) : rtest := mkTest (rt_name t) (rt_doc t) tags (rt_calls t) (rt_line t) (rt_col t).
Definition test_tagged (n : nat) (names : list str) (t t' : rtest) : Prop :=
  if rt_line t =? n then exists own inner, rt_tags t = own ++ inner /\ t' = with_tags (own ++ names ++ inner) (ren_test (moved_down (n - 1) 1) t)
  else t' = ren_test (moved_down (n - 1) 1) t.

(** ** A step more *)
Definition step_on (n : nat) (x : step) : Prop := l_line (st_loc x) = n.
(** the step [new] before the one on line [n] *)
Definition more_steps (n : nat) (new : step) (l : list step) : list step := flat_map (fun x => if l_line (st_loc x) =? n then [new; x] else [x]) l.
Definition sc_more_steps (n : nat) (new : step) (x : scenario) : scenario :=
  mkScenario (sc_id x) (sc_tags x) (sc_loc x) (sc_keyword x) (sc_name x) (sc_desc x) (more_steps n new (sc_steps x)) (sc_examples x).
Definition bg_more_steps (n : nat) (new : step) (x : background) : background :=
  mkBackground (bg_id x) (bg_loc x) (bg_keyword x) (bg_name x) (bg_desc x) (more_steps n new (bg_steps x)).
Definition sc_steps_some (Q : step -> Prop) (x : scenario) : Prop := Exists Q (sc_steps x).
Definition bg_steps_some (Q : step -> Prop) (x : background) : Prop := Exists Q (bg_steps x).
Definition some_step (Q : step -> Prop) : gdoc -> Prop := some_part (sc_steps_some Q) (bg_steps_some Q).
(** the lines from line [n] on moved down, and the step [new] before the step that was on line [n] *)
Definition step_added (n : nat) (new : step) (d : gdoc) : gdoc :=
  on_parts (sc_more_steps (S n) new) (bg_more_steps (S n) new) (ren_gdoc (moved_down (n - 1) 1) d).

(** line [n] is a step of a background, of a scenario *)
Definition background_line (f : feature) (n : nat) : Prop := exists st, In st (flat_map bg_steps (feature_backgrounds f)) /\ step_on n st.
Definition scenario_line (f : feature) (n : nat) : Prop := exists st, In st (flat_map sc_steps (feature_scenarios f)) /\ step_on n st.
(** the call for a new step on line [n] of [f], in column [col] (from 0), with keyword [kw] of type [kt] and this text, in the test of a row with the
    columns [cols]: the text is filled in unless the step is one of a background; an And may come after a step whose type is Unknown *)
Definition new_call (f : feature) (n col : nat) (kw : str) (kt : ktype) (text : str) (cols : list (str * str)) (c : rcall) : Prop :=
  rc_line c = n /\ rc_col c = col /\ rc_args c = [] /\
  exists text', (background_line f n /\ text' = text \/ scenario_line f n /\ filled cols text text') /\
    match kt with KtUnknown => rc_name c = text' | KtConjunction => rc_name c = kw ++ text' \/ rc_name c = text' | _ => rc_name c = kw ++ text' end.
(** the calls with a new one before that of line [n], and the lines from line [n] on moved down *)
Inductive calls_inserted (n : nat) (new : rcall -> Prop) : list rcall -> list rcall -> Prop :=
| ci_nil : calls_inserted n new [] []
| ci_other c cs cs' : rc_line c <> n -> calls_inserted n new cs cs' -> calls_inserted n new (c :: cs) (ren_call (moved_down (n - 1) 1) c :: cs')
| ci_here c c' cs cs' : rc_line c = n -> new c' -> calls_inserted n new cs cs' -> calls_inserted n new (c :: cs) (c' :: ren_call (moved_down (n - 1) 1) c :: cs').
Definition with_calls (cs : list rcall) (t : rtest) : rtest := mkTest (rt_name t) (rt_doc t) (rt_tags t) cs (rt_line t) (rt_col t).
Definition test_inserted (n : nat) (new : rcall -> Prop) (t t' : rtest) : Prop :=
  calls_inserted n new (rt_calls t) (rt_calls t') /\ t' = with_calls (rt_calls t') (ren_test (moved_down (n - 1) 1) t).
