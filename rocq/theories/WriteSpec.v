(** * Documents as texts: specification for C54 (no modelled code)

    What a document says apart from where it stands ([plain]), which documents can be written
    ([writable]), and one way to write them ([feature_text]). *)
From Verif Require Import PyStr Types Line DialectData Matcher LineSpec LangSpec Ast DocSpec.
Local Open Scope N_scope.

(** ** Documents without ids and locations *)
Definition nowhere : location := mkLoc 0 None.
Definition plain_tag (t : tag) : tag := mkTag 0 nowhere (tag_name t).
Definition plain_row (r : row) : row := mkRow 0 nowhere (map (fun c => mkCell nowhere (cell_value c)) (row_cells r)).
Definition plain_arg (a : steparg) : steparg :=
  match a with
  | ANone => ANone
  | ATable t => ATable (mkTable nowhere (map plain_row (dt_rows t)))
  | ADoc ds => ADoc (mkDoc nowhere (ds_content ds) (ds_delimiter ds) (ds_media ds))
  end.
Definition plain_step (x : step) : step :=
  mkStep 0 nowhere (st_keyword x) (st_ktype x) (st_text x) (plain_arg (st_arg x)).
Definition plain_background (x : background) : background :=
  mkBackground 0 nowhere (bg_keyword x) (bg_name x) (bg_desc x) (map plain_step (bg_steps x)).
Definition plain_examples (x : examples) : examples :=
  mkExamples 0 (map plain_tag (ex_tags x)) nowhere (ex_keyword x) (ex_name x) (ex_desc x)
    (option_map plain_row (ex_header x)) (map plain_row (ex_body x)).
Definition plain_scenario (x : scenario) : scenario :=
  mkScenario 0 (map plain_tag (sc_tags x)) nowhere (sc_keyword x) (sc_name x) (sc_desc x)
    (map plain_step (sc_steps x)) (map plain_examples (sc_examples x)).
Definition plain_rule (x : rule_ast) : rule_ast :=
  mkRule 0 (map plain_tag (ru_tags x)) nowhere (ru_keyword x) (ru_name x) (ru_desc x)
    (option_map plain_background (ru_background x)) (map plain_scenario (ru_scenarios x)).
Definition plain (x : feature) : feature :=
  mkFeature (map plain_tag (fe_tags x)) nowhere (fe_language x) (fe_keyword x) (fe_name x) (fe_desc x)
    (option_map plain_background (fe_background x)) (map plain_scenario (fe_scenarios x)) (map plain_rule (fe_rules x)).

(** ** Documents that can be written *)
Definition no_nl (x : str) : Prop := ~ In ch_nl x.
(** a text within one line, without white space around it *)
Definition trimmed (x : str) : Prop := no_nl x /\ strip x = x.
(** keyword and name of an element *)
Definition title_ok (kws : list str) (keyword name : option str) : Prop :=
  exists k n, keyword = Some k /\ name = Some n /\ In k kws /\ trimmed n.
(** no line of a description would end it; it begins with a visible line and does not end in an empty one *)
Definition description_ok (d : dialect) (p : place) (desc : str) : Prop :=
  desc = [] \/
  (Forall (fun x => without_eol x = x /\ ~ ends_description d p x) (split_on ch_nl desc) /\
   ~ all_space (hd [] (split_on ch_nl desc)) /\ last (split_on ch_nl desc) [] <> []).
Definition tag_ok (t : tag) : Prop := exists name, tag_name t = ch_at :: name /\ tag_name_ok name.
(** cell values have no blanks around them *)
Definition cell_ok (v : str) : Prop := drop_while blank v = v /\ rstrip_by blank v = v.
Definition row_ok (r : row) : Prop := Forall (fun c => cell_ok (cell_value c)) (row_cells r).
Definition rows_ok (rows : list row) : Prop := Forall row_ok rows /\ rectangular rows.
(** escaping the separators in the line [x] of a doc string *)
Definition escape_line (sep x : str) : str := replace sep (escaped sep) x.
Definition doc_ok (ds : docstring) : Prop :=
  exists sep, ds_delimiter ds = Some sep /\ separator sep /\
    Forall (fun x => without_eol x = x /\ replace (escaped sep) sep (escape_line sep x) = x) (split_on ch_nl (ds_content ds)) /\
    match ds_media ds with None => True | Some m => m <> [] /\ trimmed m end.
Definition arg_ok (a : steparg) : Prop :=
  match a with ANone => True | ATable t => dt_rows t <> [] /\ rows_ok (dt_rows t) | ADoc ds => doc_ok ds end.
(** a step keyword that no keyword listed before it hides *)
Definition step_ok (d : dialect) (x : step) : Prop :=
  (exists k t before after, st_keyword x = Some k /\ st_text x = Some t /\ st_ktype x = Some (step_type d k) /\ trimmed t /\
     all_step_keywords d = before ++ k :: after /\ Forall (fun k' => startswith k' k = false) before) /\
  arg_ok (st_arg x).
Section Ok.
Variable d : dialect.
Definition background_ok (x : background) : Prop :=
  title_ok (d_background d) (bg_keyword x) (bg_name x) /\ description_ok d InBackground (bg_desc x) /\ Forall (step_ok d) (bg_steps x).
Definition examples_ok (x : examples) : Prop :=
  title_ok (d_examples d) (ex_keyword x) (ex_name x) /\ description_ok d InExamples (ex_desc x) /\ Forall tag_ok (ex_tags x) /\
  match ex_header x with None => ex_body x = [] | Some h => rows_ok (h :: ex_body x) end.
Definition scenario_ok (x : scenario) : Prop :=
  title_ok (scenario_keywords d) (sc_keyword x) (sc_name x) /\ description_ok d InScenario (sc_desc x) /\ Forall tag_ok (sc_tags x) /\
  Forall (step_ok d) (sc_steps x) /\ Forall examples_ok (sc_examples x).
Definition opt_ok {A} (P : A -> Prop) (o : option A) : Prop := match o with Some a => P a | None => True end.
Definition rule_ok (x : rule_ast) : Prop :=
  title_ok (d_rule d) (ru_keyword x) (ru_name x) /\ description_ok d InHeader (ru_desc x) /\ Forall tag_ok (ru_tags x) /\
  opt_ok background_ok (ru_background x) /\ Forall scenario_ok (ru_scenarios x).
Definition feature_ok (x : feature) : Prop :=
  title_ok (d_feature d) (fe_keyword x) (fe_name x) /\ description_ok d InHeader (fe_desc x) /\ Forall tag_ok (fe_tags x) /\
  opt_ok background_ok (fe_background x) /\ Forall scenario_ok (fe_scenarios x) /\ Forall rule_ok (fe_rules x).
End Ok.
Definition writable (x : feature) : Prop :=
  exists lang d, fe_language x = Some lang /\ for_name lang = Some d /\ feature_ok d x.

(** ** Writing: the lines of each element, without line ends *)
Definition text_in (o : option str) : str := match o with Some x => x | None => [] end.
Definition title_text (keyword name : option str) : str := text_in keyword ++ s ": " ++ text_in name.
Definition description_lines (desc : str) : list str := match desc with [] => [] | _ => split_on ch_nl desc end.
Definition tags_lines (tags : list tag) : list str :=
  match tags with [] => [] | _ => [flat_map (fun t => tag_name t ++ [ch_space]) tags] end.
Definition row_text_of (r : row) : str :=
  row_text (map (fun c => [ch_space] ++ escape_cell (cell_value c) ++ [ch_space]) (row_cells r)).
Definition doc_lines_of (ds : docstring) : list str :=
  let sep := text_in (ds_delimiter ds) in
  (sep ++ text_in (ds_media ds)) :: map (escape_line sep) (split_on ch_nl (ds_content ds)) ++ [sep].
Definition arg_lines (a : steparg) : list str :=
  match a with ANone => [] | ATable t => map row_text_of (dt_rows t) | ADoc ds => doc_lines_of ds end.
(** keyword and text; a tab goes between them if otherwise another keyword would be read *)
Definition step_text (d : dialect) (x : step) : str :=
  let k := text_in (st_keyword x) in let t := text_in (st_text x) in
  match find (fun k' => startswith k' (k ++ t)) (all_step_keywords d) with
  | Some k' => if str_eqb k' k then k ++ t else k ++ [ch_tab] ++ t
  | None => k ++ t
  end.
Section Write.
Variable d : dialect.
Definition step_lines (x : step) : list str := step_text d x :: arg_lines (st_arg x).
Definition background_lines (x : background) : list str :=
  title_text (bg_keyword x) (bg_name x) :: description_lines (bg_desc x) ++ flat_map step_lines (bg_steps x).
Definition examples_lines (x : examples) : list str :=
  tags_lines (ex_tags x) ++ title_text (ex_keyword x) (ex_name x) :: description_lines (ex_desc x) ++
  map row_text_of (match ex_header x with Some h => h :: ex_body x | None => [] end).
Definition scenario_lines (x : scenario) : list str :=
  tags_lines (sc_tags x) ++ title_text (sc_keyword x) (sc_name x) :: description_lines (sc_desc x) ++
  flat_map step_lines (sc_steps x) ++ flat_map examples_lines (sc_examples x).
Definition opt_lines {A} (f : A -> list str) (o : option A) : list str := match o with Some a => f a | None => [] end.
Definition rule_lines (x : rule_ast) : list str :=
  tags_lines (ru_tags x) ++ title_text (ru_keyword x) (ru_name x) :: description_lines (ru_desc x) ++
  opt_lines background_lines (ru_background x) ++ flat_map scenario_lines (ru_scenarios x).
Definition feature_lines (x : feature) : list str :=
  tags_lines (fe_tags x) ++ title_text (fe_keyword x) (fe_name x) :: description_lines (fe_desc x) ++
  opt_lines background_lines (fe_background x) ++ flat_map scenario_lines (fe_scenarios x) ++ flat_map rule_lines (fe_rules x).
End Write.
(** a language header and the feature; every line ends in a line feed *)
Definition feature_text (x : feature) : str :=
  let lang := text_in (fe_language x) in
  match for_name lang with
  | Some d => flat_map (fun l => l ++ [ch_nl]) ((s "# language: " ++ lang) :: feature_lines d x)
  | None => []
  end.
