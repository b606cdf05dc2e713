(** * Texts with ragged tables: specification for C20

    [stands_with table]: as [stands_for] of DocSpec.v, except that [table] says which lines are the rows of
    a table.  [stands_with table_block] is [stands_for] (theorem [stands_with_tables]); with [rows_block] the
    rows of a table may have different numbers of cells. *)
From Verif Require Import PyStr Types Line DialectData Matcher Ast LineSpec LangSpec DocSpec PartsSpec.

Section Shape.
Variable table : list nline -> list row -> list comment -> Prop.

Definition argument_with (ls : list nline) (a : steparg) (cs : list comment) : Prop :=
  (ls = [] /\ a = ANone /\ cs = []) \/
  (exists l ls' rows, ls = l :: ls' /\ table ls rows cs /\ a = ATable (mkTable (here l) rows)) \/
  (exists ds, doc_block ls ds cs /\ a = ADoc ds).
Definition step_with (d : dialect) (ls : list nline) (x : step) (cs : list comment) : Prop :=
  exists l noise arg kw text a cs1 cs2, ls = l :: noise ++ arg /\ step_line d (snd l) kw text /\
    noise_lines noise cs1 /\ argument_with arg a cs2 /\ cs = cs1 ++ cs2 /\
    x = mkStep 0 (here l) (Some kw) (Some (step_type d kw)) (Some text) a.
Definition background_with (d : dialect) (ls : list nline) (x : background) (cs : list comment) : Prop :=
  exists l dl sl kw name desc steps cs1 cs2, ls = l :: dl ++ sl /\ title_line (d_background d) (snd l) kw name /\
    description_block d InBackground dl desc cs1 /\ blocks (step_with d) sl steps cs2 /\ cs = cs1 ++ cs2 /\
    x = mkBackground 0 (here l) (Some kw) (Some name) desc steps.
Definition examples_with (d : dialect) (ls : list nline) (x : examples) (cs : list comment) : Prop :=
  exists tl l dl rl tags kw name desc rows cs0 cs1 cs2, ls = tl ++ l :: dl ++ rl /\ tags_block tl tags cs0 /\
    title_line (d_examples d) (snd l) kw name /\ description_block d InExamples dl desc cs1 /\
    maybe table rl rows cs2 /\ cs = cs0 ++ cs1 ++ cs2 /\
    x = mkExamples 0 tags (here l) (Some kw) (Some name) desc
          (match rows with Some (h :: _) => Some h | _ => None end) (match rows with Some (_ :: b) => b | _ => [] end).
Definition scenario_with (d : dialect) (ls : list nline) (x : scenario) (cs : list comment) : Prop :=
  exists tl l dl sl el tags kw name desc steps exs cs0 cs1 cs2 cs3, ls = tl ++ l :: dl ++ sl ++ el /\ tags_block tl tags cs0 /\
    title_line (scenario_keywords d) (snd l) kw name /\ description_block d InScenario dl desc cs1 /\
    blocks (step_with d) sl steps cs2 /\ blocks (examples_with d) el exs cs3 /\ cs = cs0 ++ cs1 ++ cs2 ++ cs3 /\
    x = mkScenario 0 tags (here l) (Some kw) (Some name) desc steps exs.
Definition rule_with (d : dialect) (ls : list nline) (x : rule_ast) (cs : list comment) : Prop :=
  exists tl l dl bl sl tags kw name desc bg scs cs0 cs1 cs2 cs3, ls = tl ++ l :: dl ++ bl ++ sl /\ tags_block tl tags cs0 /\
    title_line (d_rule d) (snd l) kw name /\ description_block d InHeader dl desc cs1 /\
    maybe (background_with d) bl bg cs2 /\ blocks (scenario_with d) sl scs cs3 /\ cs = cs0 ++ cs1 ++ cs2 ++ cs3 /\
    x = mkRule 0 tags (here l) (Some kw) (Some name) desc bg scs.
Definition feature_with (d : dialect) (lang : str) (ls : list nline) (x : feature) (cs : list comment) : Prop :=
  exists tl l dl bl sl rl tags kw name desc bg scs rus cs0 cs1 cs2 cs3 cs4, ls = tl ++ l :: dl ++ bl ++ sl ++ rl /\ tags_block tl tags cs0 /\
    title_line (d_feature d) (snd l) kw name /\ description_block d InHeader dl desc cs1 /\
    maybe (background_with d) bl bg cs2 /\ blocks (scenario_with d) sl scs cs3 /\ blocks (rule_with d) rl rus cs4 /\
    cs = cs0 ++ cs1 ++ cs2 ++ cs3 ++ cs4 /\
    x = mkFeature tags (here l) (Some lang) (Some kw) (Some name) desc bg scs rus.
Definition stands_with (lang : str) (ls : list nline) (doc : gdoc) : Prop :=
  (exists cs, preamble ls cs /\ doc = mkGdoc None cs) \/
  (exists pre fl d f cs0 cs1, ls = pre ++ fl /\ preamble pre cs0 /\ for_name lang = Some d /\
     feature_with d lang fl f cs1 /\ doc = mkGdoc (Some f) (cs0 ++ cs1)) \/
  (exists pre h mid fl name d f cs0 cs1 cs2, ls = pre ++ h :: mid ++ fl /\ preamble pre cs0 /\
     language_line (snd h) name /\ for_name name = Some d /\ noise_lines mid cs1 /\
     feature_with d name fl f cs2 /\ doc = mkGdoc (Some f) (cs0 ++ cs1 ++ cs2)).
End Shape.

(** the tables of a document, in the order of the text *)
Definition step_tabs (x : step) : list (list row) := match st_arg x with ATable t => [dt_rows t] | _ => [] end.
Definition examples_tabs (x : examples) : list (list row) := match ex_header x with Some h => [h :: ex_body x] | None => [] end.
Definition scenario_tabs (x : scenario) : list (list row) := flat_map step_tabs (sc_steps x) ++ flat_map examples_tabs (sc_examples x).
Definition background_tabs (x : option background) : list (list row) := match x with Some b => flat_map step_tabs (bg_steps b) | None => [] end.
Definition rule_tabs (x : rule_ast) : list (list row) := background_tabs (ru_background x) ++ flat_map scenario_tabs (ru_scenarios x).
Definition feature_tabs (x : feature) : list (list row) :=
  background_tabs (fe_background x) ++ flat_map scenario_tabs (fe_scenarios x) ++ flat_map rule_tabs (fe_rules x).
Definition document_tabs (x : gdoc) : list (list row) := match gd_feature x with Some f => feature_tabs f | None => [] end.

(** [r] is the first row of the table whose number of cells is not that of the first row *)
Definition first_odd (rows : list row) (r : row) : Prop :=
  exists r0 before after, rows = r0 :: before ++ r :: after /\
    Forall (fun r' => length (row_cells r') = length (row_cells r0)) before /\ length (row_cells r) <> length (row_cells r0).
(** the error for the row [r] *)
Definition row_error (r : row) : perr :=
  mkPErr KAstBuilder (s "(" ++ str_of_nat (l_line (row_loc r)) ++ s ":" ++ str_of_nat (match l_col (row_loc r) with Some c => c | None => 0 end) ++
    s "): inconsistent cell count within the table") (row_loc r).
(** the errors for these tables: one for each ragged table *)
Inductive table_errors : list (list row) -> list perr -> Prop :=
| te_nil : table_errors [] []
| te_even t ts es : rectangular t -> table_errors ts es -> table_errors (t :: ts) es
| te_ragged t ts r es : first_odd t r -> table_errors ts es -> table_errors (t :: ts) (row_error r :: es).

Theorem stands_with_tables : forall lang ls doc, stands_with table_block lang ls doc <-> stands_for lang ls doc.
Proof. intros. reflexivity. Qed.
