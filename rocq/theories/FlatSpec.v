(** * Features without rules: specification for C107 (no modelled code) *)
From Verif Require Import PyStr Types Line Ast PickleSpec SpreadSpec DownSpec.

(** the feature [x] with its rules taken away; their scenarios, with the tags of their rules, come after those outside rules *)
Definition dissolve (x : feature) : feature :=
  mkFeature (fe_tags x) (fe_loc x) (fe_language x) (fe_keyword x) (fe_name x) (fe_desc x) (fe_background x)
    (map (down_scenario []) (fe_scenarios x) ++ flat_map (fun r => map (down_scenario (ru_tags r)) (ru_scenarios r)) (fe_rules x)) [].
(** no rule has a background with steps *)
Definition no_rule_steps (x : feature) : Prop := Forall (fun r => background_steps (ru_background r) = []) (fe_rules x).
(** neither backgrounds nor rules: steps and tags stand at the scenarios and examples *)
Definition flattened (x : feature) : feature := dissolve (spread x).
