(** * The argument of a step replaced, removed, added: specification for C99 (no modelled code) *)
From Verif Require Import PyStr Types Line DialectData Matcher LineSpec LangSpec Ast DocSpec PartsSpec Compiler MiddleSpec PartSpec WordSpec DocEditSpec.

(** the lines [xs], the first of them on line [n] *)
Definition lines_from (n : nat) (xs : list str) : list nline := combine (seq n (length xs)) xs.
(** they are table rows with the same number of cells, and nothing more *)
Definition table_lines (n : nat) (xs : list str) (rows : list row) : Prop := Forall2 row_at_line (lines_from n xs) rows /\ rectangular rows.
(** they are one argument of a step, a table or a doc string, and say [a] *)
Definition argument_lines (n : nat) (xs : list str) (a : steparg) : Prop :=
  (exists ds, doc_lines n xs ds /\ a = ADoc ds) \/
  (exists r rows, table_lines n xs (r :: rows) /\ a = ATable (mkTable (row_loc r) (r :: rows))).
(** the argument of the step is [a] (ids apart) *)
Definition has_arg (a : steparg) (x : step) : Prop := no_id_arg (st_arg x) = a.
(** the argument of the step begins on line [n] *)
Definition arg_line (a : steparg) : option nat := match a with ANone => None | ATable t => Some (l_line (dt_loc t)) | ADoc ds => Some (l_line (ds_loc ds)) end.
Definition arg_on (n : nat) (x : step) : Prop := arg_line (st_arg x) = Some n.
(** the argument [a] instead of the one that begins on line [n] *)
Definition for_arg (n : nat) (a : steparg) (x : step) : step :=
  match arg_line (st_arg x) with Some l => if l =? n then with_arg a x else x | None => x end.
