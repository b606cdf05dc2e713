(** * A row of a step's table replaced: specification for C89 (no modelled code) *)
From Verif Require Import PyStr Types Line DialectData Matcher LineSpec LangSpec Ast DocSpec PartsSpec Compiler Glob Robot RobotSpec PickleSpec SuiteSpec ExampleSpec PartSpec WordSpec.

(** ** Documents *)
Definition rows_of (a : steparg) : list row := match a with ATable t => dt_rows t | _ => [] end.
Definition has_row (n : nat) (x : step) : Prop := Exists (on_line n) (rows_of (st_arg x)).
(** the table of the step has a row on line [n], and all its other rows have [k] cells *)
Definition row_fits (n k : nat) (x : step) : Prop := has_row n x /\ Forall (fun r => on_line n r \/ length (row_cells r) = k) (rows_of (st_arg x)).
(** the row on line [n] replaced by [r]; the place of a table is that of its first row *)
Definition edit_table (n : nat) (r : row) (t : datatable) : datatable :=
  mkTable (if l_line (dt_loc t) =? n then row_loc r else dt_loc t) (map (fun x => if l_line (row_loc x) =? n then r else x) (dt_rows t)).
Definition edit_arg (n : nat) (r : row) (a : steparg) : steparg := match a with ATable t => ATable (edit_table n r t) | ANone => ANone | ADoc ds => ADoc ds end.
Definition edit_step (n : nat) (r : row) (x : step) : step := mkStep (st_id x) (st_loc x) (st_keyword x) (st_ktype x) (st_text x) (edit_arg n r (st_arg x)).
Definition row_replaced (n : nat) (r : row) (d : gdoc) : gdoc := on_parts (sc_reword (edit_step n r)) (bg_reword (edit_step n r)) d.
(** the row of a line [x] that is line [n], with these cells *)
Definition row_of_line (n : nat) (x : str) (items : list mitem) : row :=
  mkRow 0 (mkLoc n (Some (indent_of x + 1))) (map (fun i => mkCell (mkLoc n (Some (i_column i))) (i_text i)) items).

(** ** Suites *)
(** [c'] is the call [c] of the step [st], with the argument [new st] instead, filled in with [cols] *)
Definition call_argued (Q : step -> Prop) (new : step -> steparg) (cols : list (str * str)) (st : step) (c c' : rcall) : Prop :=
  (Q st -> rc_name c' = rc_name c /\ rc_line c' = rc_line c /\ rc_col c' = rc_col c /\ exists a, arg_filled cols (new st) a /\ args_of a (rc_args c')) /\
  (~ Q st -> c' = c).
(** in a test that comes from [o], the call of each [Q] step has the new argument: the steps of backgrounds with the text as it is, those of the scenario
    filled in with the values of the row; everything else is the same *)
Definition test_argued (f : feature) (Q : step -> Prop) (new : step -> steparg) (o : origin) (t t' : rtest) : Prop :=
  exists c1 c2 c1' c2', rt_calls t = c1 ++ c2 /\ t' = with_calls (c1' ++ c2') t /\
    Forall3 (call_argued Q new []) (inherited_steps f o) c1 c1' /\ Forall3 (call_argued Q new (columns o)) (sc_steps (o_scenario o)) c2 c2'.
