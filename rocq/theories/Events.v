(** * The event stream

    Model of packages/gurke/src/gurke/stream/gherkin_events.py. *)
From Verif Require Import PyStr Types Regex Line Matcher Ast Parser Compiler.

(** the options of gherkin_events.py:33-42, __main__.py:7-17 *)
Record options := mkOpts { o_source : bool; o_ast : bool; o_pickles : bool }.
(** source_event["source"]: uri and data *)
Record source := mkSource { so_uri : str; so_data : str }.

(** the events; gherkin_events.py:8-15 [create_errors] and :34, :37, :42 *)
Inductive event :=
| EvSource (x : source)
| EvDocument (uri : str) (d : gdoc)
| EvPickle (uri : str) (p : pickle)
| EvError (uri : str) (loc : location) (msg : str).

Definition error_event (uri : str) (e : perr) : event := EvError uri (pe_loc e) (pe_msg e).

(** gherkin_events.py:25-48 [enum]: the events yielded for one source, the exception with which
    the generator ends, if any, and the state of the shared id generator.  Every call of
    [Parser.parse] makes a TokenMatcher of its own (parser.py:74-75). *)
Definition enum_one (o : options) (src : source) (ids : nat) : list event * option exn * nat :=
  match new_matcher false (s "en") with
  | Err e => ([], Some e, ids)
  | Ok ms =>
      let (r, c) := parse_lines false ids ms (split_lines (so_data src)) in
      let ids1 := ab_ids (c_b c) in
      match r with
      | Ok d =>
          let evs := (if o_source o then [EvSource src] else []) ++
                     (if o_ast o then [EvDocument (so_uri src) d] else []) in
          if o_pickles o then
            match compile d ids1 with
            | Ok (ps, ids2) => (evs ++ map (EvPickle (so_uri src)) ps, None, ids2)
            | Err e => (evs, Some e, ids1)
            end
          else (evs, None, ids1)
      | Err (EComposite es) => (map (error_event (so_uri src)) es, None, ids1)       (* :43-45 *)
      | Err (EParser e) => ([error_event (so_uri src) e], None, ids1)                (* :46-48 *)
      | Err e => ([], Some e, ids1)
      end
  end.

(** __main__.py:20-25: the events of several sources; an exception ends the program *)
Fixpoint enum_all (o : options) (l : list source) (ids : nat) : list event * option exn * nat :=
  match l with
  | [] => ([], None, ids)
  | x :: l' =>
      match enum_one o x ids with
      | (evs, Some e, ids1) => (evs, Some e, ids1)
      | (evs, None, ids1) =>
          let '(evs', r, ids2) := enum_all o l' ids1 in (evs ++ evs', r, ids2)
      end
  end.
