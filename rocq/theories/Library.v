(** * Hooks

    Model of src/GherkinParser/Library.py.  Robot Framework's namespace is given as
    the list of keywords in the order in which the code enumerates them (resources,
    then libraries); keyword objects are told apart by a number. *)
From Verif Require Import PyStr Types.

(** a pair (v.name, keyword) of Library.py:30-33 / 56-59.  [kw_resolves]: the runner that
    Robot Framework finds for the full name belongs to this very keyword (:38, :65);
    [kw_fails]: running it raises an Exception. *)
Record hook_kw := mkHook {
  kw_owner : str; kw_name : str; kw_tags : list str; kw_resolves : bool; kw_fails : bool }.
Definition full_name (k : hook_kw) : str := kw_owner k ++ s "." ++ kw_name k.

(** Library.py:68 *)
Definition prefix : str := s "hook:".
(** Library.py:34-36 / 60-62: the tags that start with the prefix and name one of the events *)
Definition hook_tags (k : hook_kw) : list str := filter (startswith prefix) (kw_tags k).
Definition tag_in_events (events : list str) (tag : str) : bool :=
  str_mem (skipn (length prefix) tag) events.

(** how a statement is left: normally, by [break], or by an exception *)
Inductive flow := FNext | FBreak | FRaise.

(** Library.py:39-46: [try: run_keyword .. except Exception as e: errored = True; raise e
    finally: break]; returns [errored] and how the statement is left *)
Definition run_hook (k : hook_kw) : bool * flow :=
  let (errored, f) := if kw_fails k then (true, FRaise) else (false, FNext) in    (* :39-44 *)
  let f' := match f with _ => FBreak end in        (* :45-46: a break in finally discards the exception *)
  (errored, f').

(** Library.py:35-46: the loop over the tags of one keyword: the names run, [errored], and how
    the loop is left ([break] ends it normally) *)
Fixpoint call_one (events : list str) (k : hook_kw) (tags : list str) : list str * bool * flow :=
  match tags with
  | [] => ([], false, FNext)
  | t :: tags' =>
      if tag_in_events events t && kw_resolves k then                             (* :36-38 *)
        let (errored, f) := run_hook k in
        match f with
        | FRaise => ([full_name k], errored, FRaise)
        | FBreak => ([full_name k], errored, FNext)
        | FNext =>
            let '(run, e, f') := call_one events k tags' in
            (full_name k :: run, errored || e, f')
        end
      else call_one events k tags'
  end.
(** Library.py:30-48: the loop over the keywords *)
Fixpoint call_hooks_go (events : list str) (kws : list hook_kw) : list str * bool :=
  match kws with
  | [] => ([], false)
  | k :: kws' =>
      match call_one events k (hook_tags k) with
      | (run, _, FRaise) => (run, true)
      | (run, errored, _) =>
          if errored then (run, false)                                            (* :47-48 *)
          else let (run', raised) := call_hooks_go events kws' in (run ++ run', raised)
      end
  end.
(** Library.py:20-50 [call_hooks]: the keywords run, and whether an exception leaves the
    method ([_in_call_hooks] is False in every state, :18, :25, :50) *)
Definition call_hooks (events : list str) (kws : list hook_kw) : list str * bool :=
  call_hooks_go events kws.

(** Library.py:52-66 [yield_hooks]: one name for every matching tag *)
Definition yield_hooks (events : list str) (kws : list hook_kw) : list str :=
  flat_map (fun k => flat_map (fun t => if tag_in_events events t && kw_resolves k then [full_name k] else [])
                              (hook_tags k)) kws.

(** Library.py:78-81 / 102-105: names separated by "AND" *)
Fixpoint with_and (l : list str) : list str :=
  match l with
  | [] => []
  | [x] => [x]
  | x :: l' => x :: s "AND" :: with_and l'
  end.

(** data.setup / data.teardown: a keyword call; an empty name means that there is none *)
Record fixture := mkFix { fx_name : str; fx_args : list str }.
Record fixtures := mkFixs { f_setup : fixture; f_teardown : fixture }.
Definition run_keywords : str := s "BuiltIn.Run Keywords".
Definition has (f : fixture) : bool := match fx_name f with [] => false | _ => true end.

(** Library.py:70-120 [_create_setup_and_teardown]; [lineno] is left out *)
Definition create_setup_and_teardown (events : list str) (kws : list hook_kw) (d : fixtures) : fixtures :=
  let hooks := with_and (yield_hooks events kws) in
  match hooks with
  | [] => d
  | _ =>
      let d1 :=
        if has (f_setup d)
        then mkFixs (mkFix run_keywords (hooks ++ [s "AND"; fx_name (f_setup d)] ++ fx_args (f_setup d))) (f_teardown d)
        else mkFixs (mkFix run_keywords hooks) (f_teardown d) in
      (* Library.py:100-120: the same events again; an existing teardown is written to the setup *)
      if has (f_teardown d1)
      then mkFixs (mkFix run_keywords (hooks ++ [s "AND"; fx_name (f_teardown d1)] ++ fx_args (f_teardown d1))) (f_teardown d1)
      else mkFixs (f_setup d1) (mkFix run_keywords hooks)
  end.

(** Library.py:122-126 [start_suite], [start_test] *)
Definition start_suite := create_setup_and_teardown [s "before-suite"; s "before-feature"].
Definition start_test := create_setup_and_teardown [s "before-test"; s "before-test"].
