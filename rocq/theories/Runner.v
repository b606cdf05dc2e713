(** * Files and directories of features as Robot Framework suites

    Model of src/GherkinParser/gherkin_parser.py and of the visitor at the end of
    src/GherkinParser/gherkin_builder.py. *)
From Verif Require Import PyStr Types Line Ast Compiler Glob Robot.

(** gherkin_parser.py:19-24: the name and the source given to TestSuite, and the model given to its SuiteBuilder
    (Robot Framework's SuiteBuilder itself is not modelled) *)
Record test_suite := mkTestSuite { ts_name : str; ts_source : list str; ts_model : rfile }.

(** gherkin_parser.py:19-24 [GherkinParser.parse]; [content]: the text of the file, [dir]: its directory *)
Definition parse_file (printable : char -> bool) (source : list str) (content : str) (dir : option (list (str * entry)))
  : result test_suite :=
  rbind (build_gherkin_model printable (last source []) content dir) (fun q =>
    Ok (mkTestSuite (match snd q with Some n => n | None => [] end) source (fst q))).  (* :21 [name or ""] *)

(** path.parent: the content of the directory in which the file [p] is, below the directory with the content [l] *)
Fixpoint dir_of (l : list (str * entry)) (p : list str) : option (list (str * entry)) :=
  match p with
  | [] | [_] => Some l
  | n :: p' =>
      match find (fun e => str_eqb (fst e) n) l with
      | Some (_, EDir (Some c)) => dir_of c p'
      | _ => None
      end
  end.

(** gherkin_builder.py:234-237 [collect_gherkin_suites]; [read]: the text of a file.  The list holds what
    [build_gherkin_model] returns: pairs *)
Definition collect_gherkin_suites (printable : char -> bool) (read : list str -> str) (dir : option (list (str * entry)))
  : result (list (rfile * option str)) :=
  rbind (feature_files dir) (fun ps =>
    map_result (fun p => build_gherkin_model printable (last p []) (read p)
                           (match dir with Some l => dir_of l p | None => None end)) ps).

(** what [suite.suites] is set to: the suites it had, of the type [A], and the pairs *)
Inductive child (A : Type) := CSuite (x : A) | CPair (model : rfile) (name : option str).
Arguments CSuite {A} x.
Arguments CPair {A} model name.

(** gherkin_builder.py:245-247 [GherkinRunner.start_suite]; [source]: None if the suite has no source or if it is
    not a directory, else the content of the directory.  The check Robot Framework's setter makes is not modelled. *)
Definition start_suite {A} (printable : char -> bool) (read : list str -> str) (source : option (option (list (str * entry))))
  (suites : list A) : result (list (child A)) :=
  match source with
  | None => Ok (map CSuite suites)
  | Some dir =>
      rbind (collect_gherkin_suites printable read dir) (fun l =>
        Ok (map CSuite suites ++ map (fun q => CPair (fst q) (snd q)) l))
  end.
