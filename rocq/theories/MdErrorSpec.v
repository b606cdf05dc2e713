(** * Error messages for Markdown files: specification for C82 (no modelled code) *)
From Verif Require Import PyStr Types Line DialectData Matcher LineSpec LangSpec DocSpec ErrorSpec MdSpec MdPlaceSpec.

(** the line [x] of a Markdown file, in the language [d], is of the kind with this name.  (Whether it is
    a feature line or a fence depends on what precedes it, and is left open.) *)
Inductive md_kind (d : dialect) (x : str) : str -> Prop :=
| mk_tags : has_md_tag x -> md_kind d x (s "#TagLine")
| mk_rule kw name col : header_line (d_rule d) x kw name col -> md_kind d x (s "#RuleLine")
| mk_background kw name col : header_line (d_background d) x kw name col -> md_kind d x (s "#BackgroundLine")
| mk_scenario kw name col : header_line (d_scenario d ++ d_scenarioOutline d) x kw name col -> md_kind d x (s "#ScenarioLine")
| mk_examples kw name col : header_line (d_examples d) x kw name col -> md_kind d x (s "#ExamplesLine")
| mk_step kw text col : md_step_line d x kw text col -> md_kind d x (s "#StepLine")
| mk_row items : md_row_line x items -> md_kind d x (s "#TableRow")
| mk_separator items i : row_line x items -> In i items -> separator_cell (i_text i) -> md_kind d x (s "#Comment")
| mk_blank : all_space x -> md_kind d x (s "#Empty")
| mk_other : md_kind d x (s "#Other").

(** why an error is reported for a Markdown file with these lines: a line of none of the kinds that the
    message lists; the end of the file; a row that does not fit.  Never a language. *)
Inductive md_explained (d : dialect) (lines : list nline) : perr -> Prop :=
| mde_line l names col : In l lines -> name_list names -> incl names (s "#EOF" :: line_names) -> (forall name, In name names -> ~ md_kind d (snd l) name) -> 1 <= col ->
    md_explained d lines (mkPErr KUnexpectedToken (message (at_col l col) (s "expected: " ++ ErrorSpec.shown names ++ s ", got '" ++ strip (snd l) ++ s "'")) (at_col l col))
| mde_end names : name_list names -> incl names line_names -> md_explained d lines (unexpected_end_error (S (length lines)) names)
| mde_row l items : In l lines -> md_row_line (snd l) items ->
    md_explained d lines (mkPErr KAstBuilder (message (here l) (s "inconsistent cell count within the table")) (here l)).
