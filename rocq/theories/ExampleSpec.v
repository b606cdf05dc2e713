(** * One example row more or less: specification for C84 (no modelled code) *)
From Verif Require Import PyStr Types Line DialectData Matcher LineSpec LangSpec Ast DocSpec Compiler PickleSpec MiddleSpec.

(** ** A document with its examples changed by [h], everything else as it is *)
Section Change.
Variable h : examples -> examples.
Definition on_scenario (x : scenario) : scenario :=
  mkScenario (sc_id x) (sc_tags x) (sc_loc x) (sc_keyword x) (sc_name x) (sc_desc x) (sc_steps x) (map h (sc_examples x)).
Definition on_rule (x : rule_ast) : rule_ast :=
  mkRule (ru_id x) (ru_tags x) (ru_loc x) (ru_keyword x) (ru_name x) (ru_desc x) (ru_background x) (map on_scenario (ru_scenarios x)).
Definition on_feature (x : feature) : feature :=
  mkFeature (fe_tags x) (fe_loc x) (fe_language x) (fe_keyword x) (fe_name x) (fe_desc x) (fe_background x) (map on_scenario (fe_scenarios x)) (map on_rule (fe_rules x)).
Definition on_examples (d : gdoc) : gdoc := mkGdoc (option_map on_feature (gd_feature d)) (gd_comments d).
End Change.
(** some examples of the document, in a scenario of the feature or of one of its rules, are [Q] *)
Section Some.
Variable Q : examples -> Prop.
Definition sc_some (x : scenario) : Prop := Exists Q (sc_examples x).
Definition ru_some (x : rule_ast) : Prop := Exists sc_some (ru_scenarios x).
Definition fe_some (x : feature) : Prop := Exists sc_some (fe_scenarios x) \/ Exists ru_some (fe_rules x).
Definition some_examples (d : gdoc) : Prop := match gd_feature d with Some f => fe_some f | None => False end.
End Some.

(** ** A row less *)
Definition on_line (n : nat) (r : row) : Prop := l_line (row_loc r) = n.
(** line [n] is a row of examples, not the header *)
Definition body_row (n : nat) (e : examples) : Prop := Exists (on_line n) (ex_body e).
Definition example_row (n : nat) : gdoc -> Prop := some_examples (body_row n).
Definition off_line (n : nat) (r : row) : bool := negb (l_line (row_loc r) =? n).
Definition less_examples (n : nat) (e : examples) : examples :=
  mkExamples (ex_id e) (ex_tags e) (ex_loc e) (ex_keyword e) (ex_name e) (ex_desc e) (ex_header e) (filter (off_line n) (ex_body e)).
(** without the example row on line [n], and the lines below it moved up *)
Definition moved_up (n l : nat) : nat := if n <? l then l - 1 else l.
Definition row_removed (n : nat) (d : gdoc) : gdoc := ren_gdoc (moved_up n) (on_examples (less_examples n) d).

(** ** A row more *)
(** line [n] is the header or a row of examples with [k] columns *)
Definition table_row (n k : nat) (e : examples) : Prop :=
  exists h, ex_header e = Some h /\ length (row_cells h) = k /\ Exists (on_line n) (h :: ex_body e).
(** the row [new] after the one on line [n] *)
Definition more_examples (n : nat) (new : row) (e : examples) : examples :=
  let follow r := if l_line (row_loc r) =? n then [new] else [] in
  mkExamples (ex_id e) (ex_tags e) (ex_loc e) (ex_keyword e) (ex_name e) (ex_desc e) (ex_header e)
    (match ex_header e with Some h => follow h | None => [] end ++ flat_map (fun r => r :: follow r) (ex_body e)).
(** the lines below line [n] moved down, and on line [n + 1] a new row *)
Definition row_added (n : nat) (new : row) (d : gdoc) : gdoc := on_examples (more_examples n new) (ren_gdoc (moved_down n 1) d).
