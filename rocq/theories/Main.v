(** * The command line program

    Model of packages/gurke/src/gurke/__main__.py and stream/source_events.py.  The paths given on
    the command line are strings; the program is run with files that can be read. *)
From Verif Require Import PyStr Types Regex Line Matcher Ast Parser Compiler Glob Robot Events.

(** the dictionaries of pickles/compiler.py; the order of the keys differs between plain scenarios
    and outlines (compiler.py:66-74, 113-121), which is ignored here *)
Definition j_parg (a : parg) : jval :=                                             (* compiler.py:124-139 *)
  match a with
  | PTable rows => JDict [(s "dataTable", JDict [(s "rows", JList (map (fun cells =>
      JDict [(s "cells", JList (map (fun v => JDict [(s "value", JStr v)]) cells))]) rows))])]
  | PDoc content media => JDict [(s "docString", JDict ((s "content", JStr content) :: opt_kv "mediaType" (jopt media)))]
  end.
Definition j_pstep (q : pstep) : jval :=                                           (* compiler.py:102-109, 153-161 *)
  JDict ([(s "astNodeIds", JList (map jid (ps_nodes q))); (s "id", jid (ps_id q));
          (s "type", match ps_type q with Some k => JStr (ktype_name k) | None => JNone end); (s "text", JStr (ps_text q))] ++
         opt_kv "argument" (option_map j_parg (ps_arg q))).
Definition j_ptag (t : ptag) : jval := JDict [(s "astNodeId", jid (pt_node t)); (s "name", JStr (pt_name t))].   (* compiler.py:168 *)
Definition j_pickle (uri : str) (p : pickle) : jval :=
  JDict [(s "astNodeIds", JList (map jid (pk_nodes p))); (s "id", jid (pk_id p)); (s "tags", JList (map j_ptag (pk_tags p)));
         (s "name", JStr (pk_name p)); (s "language", JStr (pk_language p)); (s "steps", JList (map j_pstep (pk_steps p)));
         (s "uri", JStr uri)].
(** the document of Robot.v with the path of the command line under "uri": gherkin_events.py:31 *)
Definition j_document (uri : str) (d : gdoc) : jval :=
  JDict (opt_kv "feature" (option_map j_feature (gd_feature d)) ++
         [(s "comments", JList (map j_comment (gd_comments d))); (s "uri", JStr uri)]).
(** gherkin_events.py:8-15, 34, 37, 42; source_events.py:4-11 *)
Definition j_event (e : event) : jval :=
  match e with
  | EvSource x => JDict [(s "source", JDict [(s "uri", JStr (so_uri x)); (s "data", JStr (so_data x));
                                             (s "mediaType", JStr (s "text/x.cucumber.gherkin+plain"))])]
  | EvDocument uri d => JDict [(s "gherkinDocument", j_document uri d)]
  | EvPickle uri p => JDict [(s "pickle", j_pickle uri p)]
  | EvError uri loc msg => JDict [(s "parseError", JDict [(s "source", JDict [(s "uri", JStr uri); (s "location", JLoc loc)]);
                                                         (s "message", JStr msg)])]
  end.

(** json.dumps (its result is not modelled): it raises TypeError at a value that is not None, a
    string, a list or a dictionary; Location is a dataclass (location.py) *)
Fixpoint dumpable (v : jval) : bool :=
  match v with
  | JNone | JStr _ => true
  | JLoc _ | JPath => false
  | JDict kvs => forallb (fun kv => dumpable (snd kv)) kvs
  | JList l => forallb dumpable l
  end.
(** __main__.py:20-23: what is printed, and the exception the program ends with.  The generators are
    lazy: an event is printed before the next one is computed. *)
Fixpoint print_all (evs : list event) (x : option exn) : list jval * option exn :=
  match evs with
  | [] => ([], x)
  | e :: evs' =>
      if dumpable (j_event e) then let (l, y) := print_all evs' x in (j_event e :: l, y)
      else ([], Some ETypeError)
  end.
Definition main (o : options) (l : list source) : list jval * option exn :=
  let '(evs, x, _) := enum_all o l 0 in print_all evs x.
