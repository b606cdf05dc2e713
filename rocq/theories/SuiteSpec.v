(** * What a Robot suite built from a document contains: specification for C30, C32, C33

    Robot.v is used for the record types of the suite, PickleSpec.v for the origin of a pickle. *)
From Verif Require Import PyStr Types Line Ast Compiler PickleSpec Robot RobotSpec.

(** [ header = value] for each column *)
Definition suffix_of (cols : list (str * str)) : str := flat_map (fun hv => s " " ++ fst hv ++ s " = " ++ snd hv) cols.

(** the arguments [args] of a call for the argument [a] of a pickle step: none, or one inline dictionary expression which
    Robot Framework and Python read as the value of [a] *)
Definition args_of (a : option parg) (args : list str) : Prop :=
  match a with
  | None => args = []
  | Some a => exists body, args = [s "&{{" ++ body ++ s "}}"] /\ (valid_arg a -> py_literal (rf_unescape body) = Some (arg_value a))
  end.
(** the keyword call [c] for the step [st] of the document and its pickle step [q]: keyword (left out for the type
    Unknown) and text; position of the step, columns counted from 0 *)
Definition call_of (st : step) (q : pstep) (c : rcall) : Prop :=
  (exists kw, st_keyword st = Some kw /\ rc_name c = (match ps_type q with Some KtUnknown => [] | _ => kw end) ++ ps_text q) /\
  args_of (ps_arg q) (rc_args c) /\
  rc_line c = l_line (st_loc st) /\ (exists col, l_col (st_loc st) = Some col /\ rc_col c = col - 1).

(** tags of an origin below the feature *)
Definition lower_tags (o : origin) : list tag :=
  match o_rule o with None => [] | Some ru => ru_tags ru end ++ sc_tags (o_scenario o) ++ match o_row o with None => [] | Some (ex, _, _) => ex_tags ex end.

(** the test [t] for the pickle [p] that comes from [o] *)
Definition test_tags (o : origin) (t : rtest) : Prop := map (cons ch_at) (rt_tags t) = map tag_name (lower_tags o).
Definition test_of (f : feature) (o : origin) (p : pickle) (t : rtest) : Prop :=
  rt_name t = pk_name p ++ match o_row o with
    | None => []
    | Some (ex, _, _) => match ex_keyword ex with Some kw => if str_eqb kw (s "Examples") then suffix_of (columns o) else [] | None => [] end
    end /\
  rt_doc t = (match sc_desc (o_scenario o) with [] => None | x => Some (strip x) end) /\
  test_tags o t /\
  Forall3 call_of (origin_steps f o) (pk_steps p) (rt_calls t) /\
  rt_line t = l_line (sc_loc (o_scenario o)) /\ (exists col, l_col (sc_loc (o_scenario o)) = Some col /\ rt_col t = col - 1).
