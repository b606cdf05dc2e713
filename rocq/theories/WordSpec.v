(** * A step reworded, a scenario renamed: specification for C87 and C88 (no modelled code) *)
From Verif Require Import PyStr Types Line DialectData Matcher LineSpec LangSpec Ast DocSpec PartsSpec Compiler Glob Robot PickleSpec SuiteSpec PartSpec.

(** ** Documents *)
(** the step on line [n] with this place, keyword, type and text; its argument as it is *)
Definition reword_step (n : nat) (loc : location) (kw : str) (kt : ktype) (text : str) (x : step) : step :=
  if l_line (st_loc x) =? n then mkStep (st_id x) loc (Some kw) (Some kt) (Some text) (st_arg x) else x.
Definition sc_reword (h : step -> step) (x : scenario) : scenario :=
  mkScenario (sc_id x) (sc_tags x) (sc_loc x) (sc_keyword x) (sc_name x) (sc_desc x) (map h (sc_steps x)) (sc_examples x).
Definition bg_reword (h : step -> step) (x : background) : background :=
  mkBackground (bg_id x) (bg_loc x) (bg_keyword x) (bg_name x) (bg_desc x) (map h (bg_steps x)).
Definition step_reworded (n : nat) (loc : location) (kw : str) (kt : ktype) (text : str) (d : gdoc) : gdoc :=
  on_parts (sc_reword (reword_step n loc kw kt text)) (bg_reword (reword_step n loc kw kt text)) d.
(** the scenario on line [n] with this place, keyword and name *)
Definition rename (n : nat) (loc : location) (kw name : str) (x : scenario) : scenario :=
  if l_line (sc_loc x) =? n then mkScenario (sc_id x) (sc_tags x) loc (Some kw) (Some name) (sc_desc x) (sc_steps x) (sc_examples x) else x.
Definition scenario_renamed (n : nat) (loc : location) (kw name : str) (d : gdoc) : gdoc := on_parts (rename n loc kw name) (fun b => b) d.

(** ** Suites *)
(** [c'] is the call [c] of the step on line [n], with the keyword [kw] of type [kt] and this text, in column [col] (from 0); [cols] as for [new_call] *)
Definition call_reworded (f : feature) (n col : nat) (kw : str) (kt : ktype) (text : str) (cols : list (str * str)) (c c' : rcall) : Prop :=
  rc_line c' = n /\ rc_col c' = col /\ rc_args c' = rc_args c /\
  exists text', (background_line f n /\ text' = text \/ scenario_line f n /\ filled cols text text') /\
    match kt with KtUnknown => rc_name c' = text' | KtConjunction => rc_name c' = kw ++ text' \/ rc_name c' = text' | _ => rc_name c' = kw ++ text' end.
(** the call of line [n] is reworded, all others are the same *)
Definition test_reworded (n : nat) (new : rcall -> rcall -> Prop) (t t' : rtest) : Prop :=
  Forall2 (fun c c' => if rc_line c =? n then new c c' else c' = c) (rt_calls t) (rt_calls t') /\ t' = with_calls (rt_calls t') t.
(** a test of the scenario on line [n], which comes from [o], is now named [new], and in column [col] (from 0); in the names placeholders are filled in,
    and what follows them stays *)
Definition test_renamed (n col : nat) (new : str) (o : origin) (t t' : rtest) : Prop :=
  if rt_line t =? n then exists old old' new' rest, sc_name (o_scenario o) = Some old /\ filled (columns o) old old' /\ filled (columns o) new new' /\ rt_name t = old' ++ rest /\
    t' = mkTest (new' ++ rest) (rt_doc t) (rt_tags t) (rt_calls t) n col
  else t' = t.
