(** * A doc string replaced, removed, added: specification for C98 (no modelled code) *)
From Verif Require Import PyStr Types Line DialectData Matcher LineSpec LangSpec Ast DocSpec PartsSpec Compiler Glob Robot RobotSpec PickleSpec MiddleSpec PartSpec WordSpec ArgOnlySpec.

(** ** Texts *)
(** the lines [xs], the first of them on line [n], are a doc string and nothing more, and say [ds] *)
Definition doc_lines (n : nat) (xs : list str) (ds : docstring) : Prop :=
  exists sep open content close, xs = open :: content ++ [close] /\ separator sep /\ begins sep open /\ begins sep close /\ Forall (fun x => ~ begins sep x) content /\
    ds = mkDoc (mkLoc n (Some (indent_of open + 1))) (join [ch_nl] (map (content_line (indent_of open) sep) content)) (Some sep)
           (match strip (skipn (length sep) (lstrip open)) with [] => None | w => Some w end).
(** the line [l] of a text, after its lines up to [k + old] were replaced, from line [k + 1] on, by [new] lines *)
Definition shifted (k old new l : nat) : nat := if k + old <? l then l - old + new else l.

(** ** Documents *)
Definition with_arg (a : steparg) (x : step) : step := mkStep (st_id x) (st_loc x) (st_keyword x) (st_ktype x) (st_text x) a.
(** the step has a doc string that begins on line [n] *)
Definition doc_at (n : nat) (x : step) : Prop := exists ds, st_arg x = ADoc ds /\ l_line (ds_loc ds) = n.
(** the step on line [n] has no argument *)
Definition bare_on (n : nat) (x : step) : Prop := step_on n x /\ st_arg x = ANone.
(** the argument [a] instead of the doc string that begins on line [n], for the step on line [n] *)
Definition for_doc (n : nat) (a : steparg) (x : step) : step := match st_arg x with ADoc ds => if l_line (ds_loc ds) =? n then with_arg a x else x | _ => x end.
Definition for_step (n : nat) (a : steparg) (x : step) : step := if l_line (st_loc x) =? n then with_arg a x else x.
Definition on_steps (h : step -> step) (d : gdoc) : gdoc := on_parts (sc_reword h) (bg_reword h) d.

(** ** Suites *)
(** a test [t] of the origin [o] of [f]: the test [t'] is [t] with the lines moved by [g], but for the arguments of calls of steps that are [P] *)
Definition test_but_calls (g : nat -> nat) (P : step -> Prop) (f : feature) (o : origin) (t t' : rtest) : Prop :=
  t' = with_calls (rt_calls t') (ren_test g t) /\
  Forall3 (fun st c c' => c' = with_args (rc_args c') (ren_call g c) /\ (rc_args c' = rc_args c \/ P st)) (origin_steps f o) (rt_calls t) (rt_calls t').
