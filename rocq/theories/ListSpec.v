(** * The token listing: specification for C66

    [python -m gurke] style token listings: one entry per line of the text and "EOF".  What the
    entry of a line says, by the line and by what came before it.  Nothing here mentions the
    parser, tokens, or the builder. *)
From Verif Require Import PyStr Types Line DialectData Matcher LineSpec LangSpec DocSpec.
Local Open Scope N_scope.

(** (line:column)Kind:keyword/text/items *)
Definition entry (n col : nat) (kind kw text items : str) : str :=
  s "(" ++ str_of_nat n ++ s ":" ++ str_of_nat col ++ s ")" ++ kind ++ s ":" ++ kw ++ s "/" ++ text ++ s "/" ++ items.
(** column:text of tags or cells, separated by commas *)
Definition items_entry (items : list mitem) : str :=
  join (s ",") (map (fun i => str_of_nat (i_column i) ++ s ":" ++ i_text i) items).
(** the column of the first visible character *)
Definition first_col (l : nline) : nat := (indent_of (snd l) + 1)%nat.
Definition type_name (k : ktype) : str :=
  match k with
  | KtContext => s "Context" | KtAction => s "Action" | KtOutcome => s "Outcome"
  | KtConjunction => s "Conjunction" | KtUnknown => s "Unknown"
  end.

(** where a line stands *)
Inductive position :=
| AtStart                                (* before the language header, tags or feature *)
| AfterTitle (p : place) (begun : bool)  (* a description may go on; it has begun *)
| InQuotes (k : nat) (sep : str)         (* in a doc string opened by [sep], indented by [k] *)
| Elsewhere.

(** titles: their kind, their keywords, the place of their description *)
Inductive titles (d : dialect) : str -> list str -> place -> Prop :=
| ti_feature : titles d (s "FeatureLine") (d_feature d) InHeader
| ti_rule : titles d (s "RuleLine") (d_rule d) InHeader
| ti_background : titles d (s "BackgroundLine") (d_background d) InBackground
| ti_scenario : titles d (s "ScenarioLine") (scenario_keywords d) InScenario
| ti_examples : titles d (s "ExamplesLine") (d_examples d) InExamples.

(** lines of a fixed form: title, step, tags, table row, opening of a doc string *)
Inductive formed (d : dialect) (l : nline) : str -> position -> Prop :=
| fo_title kind kws p kw name : titles d kind kws p -> title_line kws (snd l) kw name ->
    formed d l (entry (fst l) (first_col l) kind (s "()" ++ kw) name []) (AfterTitle p false)
| fo_step kw text : step_line d (snd l) kw text ->
    formed d l (entry (fst l) (first_col l) (s "StepLine") (s "(" ++ type_name (step_type d kw) ++ s ")" ++ kw) text []) Elsewhere
| fo_tags items : tags_line (snd l) items ->
    formed d l (entry (fst l) (first_col l) (s "TagLine") [] [] (items_entry items)) Elsewhere
| fo_row items : row_line (snd l) items ->
    formed d l (entry (fst l) (first_col l) (s "TableRow") [] [] (items_entry items)) Elsewhere
| fo_open sep media : separator sep -> begins sep (snd l) -> media = strip (skipn (length sep) (lstrip (snd l))) ->
    formed d l (entry (fst l) (first_col l) (s "DocStringSeparator") (s "()" ++ sep) media []) (InQuotes (indent_of (snd l)) sep).

(** a description cannot go on with the line *)
Definition free (d : dialect) (pos : position) (x : str) : Prop :=
  match pos with AfterTitle p _ => ends_description d p x | InQuotes _ _ => False | _ => True end.

(** in dialect [d] at [pos], the line [l] has the entry [e]; then [d'] and [pos'] *)
Inductive listed (d : dialect) : position -> nline -> str -> dialect -> position -> Prop :=
| li_language l name d' : language_line (snd l) name -> for_name name = Some d' ->
    listed d AtStart l (entry (fst l) (first_col l) (s "Language") [] name []) d' Elsewhere
| li_blank pos l : blank_line l -> (pos = AtStart \/ pos = Elsewhere \/ exists p, pos = AfterTitle p false) ->
    listed d pos l (entry (fst l) 1 (s "Empty") [] [] []) d pos
| li_comment pos l : comment_line l -> free d pos (snd l) -> (pos = AtStart -> forall name, ~ language_line (snd l) name) ->
    listed d pos l (entry (fst l) 1 (s "Comment") [] (without_eol (snd l)) []) d (match pos with AtStart => AtStart | _ => Elsewhere end)
| li_formed pos l e pos' : free d pos (snd l) -> formed d l e pos' -> listed d pos l e d pos'
| li_description p begun l : ~ ends_description d p (snd l) -> (begun = false -> ~ blank_line l) ->
    listed d (AfterTitle p begun) l (entry (fst l) 1 (s "Other") [] (without_eol (snd l)) []) d (AfterTitle p true)
| li_content k sep l : ~ begins sep (snd l) ->
    listed d (InQuotes k sep) l (entry (fst l) 1 (s "Other") [] (content_line k sep (snd l)) []) d (InQuotes k sep)
| li_close k sep l : begins sep (snd l) ->
    listed d (InQuotes k sep) l (entry (fst l) (first_col l) (s "DocStringSeparator") (s "()" ++ sep) [] []) d Elsewhere.

(** the entries of the lines, and the end *)
Inductive listing : dialect -> position -> list nline -> list str -> Prop :=
| ls_end d pos : listing d pos [] [s "EOF"]
| ls_line d pos l e d' pos' ls es : listed d pos l e d' pos' -> listing d' pos' ls es -> listing d pos (l :: ls) (e :: es).
