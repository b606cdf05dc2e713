(** * Specification for the hook properties (C39 - C41) *)
From Verif Require Import PyStr Types Library.

(** the keyword carries the tag "hook:e" for one of the events [e] *)
Definition tagged (events : list str) (k : hook_kw) : bool :=
  existsb (fun t => existsb (fun e => str_eqb t (s "hook:" ++ e)) events) (kw_tags k).

(** the full names of the hook keywords that Robot Framework finds under their full name, in order,
    once for each such tag *)
Definition hooks_of (events : list str) (kws : list hook_kw) : list str :=
  flat_map (fun k =>
    if kw_resolves k
    then map (fun _ => full_name k)
             (filter (fun t => existsb (fun e => str_eqb t (s "hook:" ++ e)) events) (kw_tags k))
    else []) kws.

(** ** Robot Framework's [BuiltIn.Run Keywords]: with an "AND" among the arguments, they are split
    at every "AND" into calls with arguments; otherwise every argument is a call. *)
Definition rcall := (str * list str)%type.
Fixpoint split_and (args : list str) : list (list str) :=
  match args with
  | [] => [[]]
  | a :: args' =>
      if str_eqb a (s "AND") then [] :: split_and args'
      else match split_and args' with
           | [] => [[a]]
           | seg :: segs => (a :: seg) :: segs
           end
  end.
Definition segment_call (seg : list str) : rcall := (hd [] seg, tl seg).
Definition run_keywords_calls (args : list str) : list rcall :=
  if str_mem (s "AND") args then map segment_call (split_and args)
  else map (fun a => (a, [])) args.

(** the keyword calls that a setup or teardown makes, one level deep *)
Definition calls (f : fixture) : list rcall :=
  match fx_name f with
  | [] => []
  | _ => if str_eqb (fx_name f) (s "BuiltIn.Run Keywords") then run_keywords_calls (fx_args f)
         else [(fx_name f, fx_args f)]
  end.
(** the fixture as one call *)
Definition as_call (f : fixture) : list rcall :=
  match fx_name f with [] => [] | _ => [(fx_name f, fx_args f)] end.

(** up to and including the first element that satisfies [p] *)
Fixpoint until {A} (p : A -> bool) (l : list A) : list A :=
  match l with
  | [] => []
  | a :: l' => if p a then [a] else a :: until p l'
  end.
