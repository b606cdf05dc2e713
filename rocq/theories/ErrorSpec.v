(** * Error messages: specification for C58 and C59 (no modelled code) *)
From Verif Require Import PyStr Types DialectData Matcher LineSpec LangSpec DocSpec.

(** the names of the kinds of lines, as messages show them *)
Definition line_names : list str :=
  [s "#Language"; s "#TagLine"; s "#FeatureLine"; s "#RuleLine"; s "#BackgroundLine"; s "#ScenarioLine"; s "#ExamplesLine";
   s "#StepLine"; s "#DocStringSeparator"; s "#TableRow"; s "#Comment"; s "#Empty"; s "#Other"].
(** the line [x], in the language [d], is of the kind with this name *)
Inductive kind_of_line (d : dialect) (x : str) : str -> Prop :=
| kl_language name : language_line x name -> kind_of_line d x (s "#Language")
| kl_tags : begins [ch_at] x -> kind_of_line d x (s "#TagLine")
| kl_feature : is_title (d_feature d) x -> kind_of_line d x (s "#FeatureLine")
| kl_rule : is_title (d_rule d) x -> kind_of_line d x (s "#RuleLine")
| kl_background : is_title (d_background d) x -> kind_of_line d x (s "#BackgroundLine")
| kl_scenario : is_title (scenario_keywords d) x -> kind_of_line d x (s "#ScenarioLine")
| kl_examples : is_title (d_examples d) x -> kind_of_line d x (s "#ExamplesLine")
| kl_step : is_step d x -> kind_of_line d x (s "#StepLine")
| kl_separator sep : separator sep -> begins sep x -> kind_of_line d x (s "#DocStringSeparator")
| kl_row : begins [ch_pipe] x -> kind_of_line d x (s "#TableRow")
| kl_comment : begins [ch_hash] x -> kind_of_line d x (s "#Comment")
| kl_empty : all_space x -> kind_of_line d x (s "#Empty")
| kl_other : kind_of_line d x (s "#Other").

(** the language of the file is the default one, or the one of a header in the lines so far *)
Definition language_so_far (lang : str) (lines : list nline) (d : dialect) : Prop :=
  for_name lang = Some d \/ exists l name, In l lines /\ language_line (snd l) name /\ for_name name = Some d.

(** a message begins with the place, (line:column), or (line:0) where there is no column *)
Definition message (loc : location) (text : str) : str :=
  s "(" ++ str_of_nat (l_line loc) ++ s ":" ++ str_of_nat (match l_col loc with Some c => c | None => 0 end) ++ s "): " ++ text.
Definition name_list (names : list str) : Prop := names <> [] /\ NoDup names.
Definition shown (names : list str) : str := join (s ", ") names.
Definition unexpected_line_error (l : nline) (names : list str) : perr :=
  mkPErr KUnexpectedToken (message (here l) (s "expected: " ++ shown names ++ s ", got '" ++ strip (snd l) ++ s "'")) (here l).
Definition unexpected_end_error (n : nat) (names : list str) : perr :=
  mkPErr KUnexpectedEOF (message (mkLoc n None) (s "unexpected end of file, expected: " ++ shown names)) (mkLoc n None).

(** the first column of a line; for an unsupported language the error may show this place as its
    location, although its message shows the place of the header: see C60 *)
Definition line_start (l : nline) : location := mkLoc (fst l) (Some 1).
(** why an error is reported for a file with these lines *)
Inductive explained (lang : str) (lines : list nline) : perr -> Prop :=
| ex_line before l after d names : lines = before ++ l :: after -> language_so_far lang before d ->
    name_list names -> incl names (s "#EOF" :: line_names) -> (forall name, In name names -> ~ kind_of_line d (snd l) name) ->
    explained lang lines (unexpected_line_error l names)
| ex_end names : name_list names -> incl names line_names ->
    explained lang lines (unexpected_end_error (S (length lines)) names)
| ex_row l : In l lines -> begins [ch_pipe] (snd l) ->
    explained lang lines (mkPErr KAstBuilder (message (here l) (s "inconsistent cell count within the table")) (here l))
| ex_language l name loc : In l lines -> language_line (snd l) name -> for_name name = None -> loc = here l \/ loc = line_start l ->
    explained lang lines (mkPErr KNoSuchLanguage (message (here l) (s "Language not supported: " ++ name)) loc).

(** ** The list of expected kinds: C59 *)

(** the language in force after these lines: that of the first header with a supported name, if it
    stands before all tags and the feature, or else the default language *)
Definition before_header (d0 : dialect) (x : str) : Prop :=
  ~ begins [ch_at] x /\ ~ is_title (d_feature d0) x /\ forall name, language_line x name -> for_name name = None.
Definition header_gives (d0 : dialect) (lines : list str) (d : dialect) : Prop :=
  exists a h b name, lines = a ++ h :: b /\ Forall (before_header d0) a /\ language_line h name /\ for_name name = Some d.
Definition in_force (lang : str) (lines : list str) (d : dialect) : Prop :=
  exists d0, for_name lang = Some d0 /\ (header_gives d0 lines d \/ d = d0 /\ forall d', ~ header_gives d0 lines d').

(** the error at line [n], where the lines [post] begin, with this list of names *)
Definition unexpected_at (n : nat) (post : list str) (names : list str) : perr :=
  match post with [] => unexpected_end_error n names | x :: _ => unexpected_line_error (n, x) names end.
(** the last line, apart from blank lines and comments, is a tag line *)
Definition ends_with_tags (lines : list str) : Prop :=
  exists a x b, lines = a ++ x :: b /\ begins [ch_at] x /\ Forall (fun y => all_space y \/ begins [ch_hash] y) b.
