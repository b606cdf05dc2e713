(** * What a Gherkin text says: specification for C04, C05, C11, C15, C16, C19, C20, C47

    The document a text stands for, by its lines: which lines belong to which element and what the
    element says.  Nothing here mentions the parser: no tokens, states, matchers or builders.  All
    ids are 0 ([no_ids]); locations are those the document reports. *)
From Verif Require Import PyStr Types Line DialectData Matcher LineSpec LangSpec Ast.
Local Open Scope N_scope.

(** ** Documents without ids *)
Definition no_id_tag (t : tag) : tag := mkTag 0 (tag_loc t) (tag_name t).
Definition no_id_row (r : row) : row := mkRow 0 (row_loc r) (row_cells r).
Definition no_id_arg (a : steparg) : steparg :=
  match a with ATable t => ATable (mkTable (dt_loc t) (map no_id_row (dt_rows t))) | a => a end.
Definition no_id_step (x : step) : step :=
  mkStep 0 (st_loc x) (st_keyword x) (st_ktype x) (st_text x) (no_id_arg (st_arg x)).
Definition no_id_background (x : background) : background :=
  mkBackground 0 (bg_loc x) (bg_keyword x) (bg_name x) (bg_desc x) (map no_id_step (bg_steps x)).
Definition no_id_examples (x : examples) : examples :=
  mkExamples 0 (map no_id_tag (ex_tags x)) (ex_loc x) (ex_keyword x) (ex_name x) (ex_desc x)
    (option_map no_id_row (ex_header x)) (map no_id_row (ex_body x)).
Definition no_id_scenario (x : scenario) : scenario :=
  mkScenario 0 (map no_id_tag (sc_tags x)) (sc_loc x) (sc_keyword x) (sc_name x) (sc_desc x)
    (map no_id_step (sc_steps x)) (map no_id_examples (sc_examples x)).
Definition no_id_rule (x : rule_ast) : rule_ast :=
  mkRule 0 (map no_id_tag (ru_tags x)) (ru_loc x) (ru_keyword x) (ru_name x) (ru_desc x)
    (option_map no_id_background (ru_background x)) (map no_id_scenario (ru_scenarios x)).
Definition no_id_feature (x : feature) : feature :=
  mkFeature (map no_id_tag (fe_tags x)) (fe_loc x) (fe_language x) (fe_keyword x) (fe_name x) (fe_desc x)
    (option_map no_id_background (fe_background x)) (map no_id_scenario (fe_scenarios x)) (map no_id_rule (fe_rules x)).
Definition no_ids (d : gdoc) : gdoc := mkGdoc (option_map no_id_feature (gd_feature d)) (gd_comments d).

(** ** Lines *)

(** a line with its number; the text includes the line end *)
Definition nline := (nat * str)%type.
(** the lines of a text, numbered from 1 *)
Definition numbered_lines (lines : list str) : list nline := combine (seq 1 (length lines)) lines.

(** white space before the first visible character *)
Definition indent_of (x : str) : nat := length x - length (lstrip x).
Definition here (l : nline) : location := mkLoc (fst l) (Some (indent_of (snd l) + 1)%nat).
Definition at_col (l : nline) (col : nat) : location := mkLoc (fst l) (Some col).
(** the first visible characters of the line are [p] *)
Definition begins (p : str) (x : str) : Prop := startswith p (lstrip x) = true.
(** the text of a line without its line end *)
Definition without_eol (x : str) : str := rstrip_crlf x.

Definition blank_line (l : nline) : Prop := all_space (snd l).
Definition comment_line (l : nline) : Prop := begins [ch_hash] (snd l).
Definition comment_at (l : nline) : comment := mkComment (at_col l 1) (Some (without_eol (snd l))).

(** the line is [keyword: name] for a keyword of the list *)
Definition title_line (kws : list str) (x kw name : str) : Prop :=
  In kw kws /\ exists rest, lstrip x = kw ++ ch_colon :: rest /\ name = strip rest.
Definition is_title (kws : list str) (x : str) : Prop := exists kw name, title_line kws x kw name.
(** the line begins with a step keyword: the first one of the language that fits *)
Definition step_line (d : dialect) (x kw text : str) : Prop :=
  exists before after rest, all_step_keywords d = before ++ kw :: after /\ Forall (fun k => ~ begins k x) before /\
    lstrip x = kw ++ rest /\ text = strip rest.
Definition is_step (d : dialect) (x : str) : Prop := exists kw text, step_line d x kw text.

(** the tags of a tag line, the row of a table line *)
Definition tags_at_line (l : nline) (tags : list tag) : Prop :=
  exists items, tags_line (snd l) items /\
    tags = map (fun i => mkTag 0 (at_col l (i_column i)) (i_text i)) items.
Definition row_at_line (l : nline) (r : row) : Prop :=
  exists items, row_line (snd l) items /\
    r = mkRow 0 (here l) (map (fun i => mkCell (at_col l (i_column i)) (i_text i)) items).

(** ** Blocks: the lines [ls] stand for an element and contain the comments [cs] *)

(** blank lines and comments *)
Inductive noise_lines : list nline -> list comment -> Prop :=
| nz_nil : noise_lines [] []
| nz_blank l ls cs : blank_line l -> noise_lines ls cs -> noise_lines (l :: ls) cs
| nz_comment l ls cs : comment_line l -> noise_lines ls cs -> noise_lines (l :: ls) (comment_at l :: cs).

(** tag lines, blank lines and comments *)
Inductive tag_lines : list nline -> list tag -> list comment -> Prop :=
| tg_nil : tag_lines [] [] []
| tg_tags l ls tags tags' cs : tags_at_line l tags -> tag_lines ls tags' cs -> tag_lines (l :: ls) (tags ++ tags') cs
| tg_blank l ls tags cs : blank_line l -> tag_lines ls tags cs -> tag_lines (l :: ls) tags cs
| tg_comment l ls tags cs : comment_line l -> tag_lines ls tags cs -> tag_lines (l :: ls) tags (comment_at l :: cs).
(** the tags before an element: none, or lines that begin with a tag line *)
Definition tags_block (ls : list nline) (tags : list tag) (cs : list comment) : Prop :=
  (ls = [] /\ tags = [] /\ cs = []) \/
  (exists l ls' tags1 tags2, ls = l :: ls' /\ tags_at_line l tags1 /\ tag_lines ls' tags2 cs /\ tags = tags1 ++ tags2).

(** table rows, blank lines and comments *)
Inductive row_lines : list nline -> list row -> list comment -> Prop :=
| rw_nil : row_lines [] [] []
| rw_row l ls r rs cs : row_at_line l r -> row_lines ls rs cs -> row_lines (l :: ls) (r :: rs) cs
| rw_blank l ls rs cs : blank_line l -> row_lines ls rs cs -> row_lines (l :: ls) rs cs
| rw_comment l ls rs cs : comment_line l -> row_lines ls rs cs -> row_lines (l :: ls) rs (comment_at l :: cs).
Definition rectangular (rows : list row) : Prop :=
  forall r1 r2, In r1 rows -> In r2 rows -> length (row_cells r1) = length (row_cells r2).
(** the rows of one table *)
Definition rows_block (ls : list nline) (rows : list row) (cs : list comment) : Prop :=
  exists l ls' r rs, ls = l :: ls' /\ row_at_line l r /\ row_lines ls' rs cs /\ rows = r :: rs.
Definition table_block (ls : list nline) (rows : list row) (cs : list comment) : Prop :=
  rows_block ls rows cs /\ rectangular rows.

(** where a description may be, and the lines that end it there *)
Inductive place := InHeader | InBackground | InScenario | InExamples.
Definition scenario_keywords (d : dialect) : list str := d_scenario d ++ d_scenarioOutline d.
Definition ends_description (d : dialect) (p : place) (x : str) : Prop :=
  begins [ch_hash] x \/ begins [ch_at] x \/ is_title (scenario_keywords d) x \/ is_title (d_rule d) x \/
  match p with
  | InHeader => is_title (d_background d) x
  | InBackground => is_step d x
  | InScenario => is_step d x \/ is_title (d_examples d) x
  | InExamples => begins [ch_pipe] x \/ is_title (d_examples d) x
  end.
(** the text of description lines: verbatim, without empty lines at the end *)
Definition description_text (ls : list nline) (desc : str) : Prop :=
  exists body last empties, map (fun l => without_eol (snd l)) ls = body ++ [last] ++ empties /\
    last <> [] /\ Forall (fun x => x = []) empties /\ desc = join [ch_nl] (body ++ [last]).
(** after a title line: blank lines, perhaps a description, perhaps comments and blank lines *)
Definition description_block (d : dialect) (p : place) (ls : list nline) (desc : str) (cs : list comment) : Prop :=
  exists blanks lines rest, ls = blanks ++ lines ++ rest /\
    Forall blank_line blanks /\
    Forall (fun l => ~ ends_description d p (snd l)) lines /\
    match lines with [] => desc = [] | l :: _ => ~ blank_line l /\ description_text lines desc end /\
    noise_lines rest cs /\ match rest with [] => True | l :: _ => comment_line l end.

(** ** Steps *)
Definition separator (sep : str) : Prop := sep = s """""""" \/ sep = s "```".
(** an escaped separator inside a doc string *)
Definition escaped (sep : str) : str := flat_map (fun c => [ch_bslash; c]) sep.
(** a content line: without line end, without the white space below the opening separator
    (indented by [k]), escaped separators unescaped *)
Definition content_line (k : nat) (sep : str) (x : str) : str :=
  without_eol (replace (escaped sep) sep (if (k <=? indent_of x)%nat then skipn k x else lstrip x)).
(** a doc string and the blank lines and comments after it *)
Definition doc_block (ls : list nline) (ds : docstring) (cs : list comment) : Prop :=
  exists sep open content close rest media, ls = open :: content ++ close :: rest /\
    separator sep /\ begins sep (snd open) /\ begins sep (snd close) /\ Forall (fun l => ~ begins sep (snd l)) content /\
    media = strip (skipn (length sep) (lstrip (snd open))) /\ noise_lines rest cs /\
    ds = mkDoc (here open) (join [ch_nl] (map (fun l => content_line (indent_of (snd open)) sep (snd l)) content)) (Some sep)
           (match media with [] => None | _ => Some media end).

Definition argument_block (ls : list nline) (a : steparg) (cs : list comment) : Prop :=
  (ls = [] /\ a = ANone /\ cs = []) \/
  (exists l ls' rows, ls = l :: ls' /\ table_block ls rows cs /\ a = ATable (mkTable (here l) rows)) \/
  (exists ds, doc_block ls ds cs /\ a = ADoc ds).
Definition step_block (d : dialect) (ls : list nline) (x : step) (cs : list comment) : Prop :=
  exists l noise arg kw text a cs1 cs2, ls = l :: noise ++ arg /\ step_line d (snd l) kw text /\
    noise_lines noise cs1 /\ argument_block arg a cs2 /\ cs = cs1 ++ cs2 /\
    x = mkStep 0 (here l) (Some kw) (Some (step_type d kw)) (Some text) a.

(** any number of blocks *)
Inductive blocks {A} (block : list nline -> A -> list comment -> Prop) : list nline -> list A -> list comment -> Prop :=
| bl_nil : blocks block [] [] []
| bl_cons ls1 x cs1 ls2 xs cs2 : block ls1 x cs1 -> blocks block ls2 xs cs2 ->
    blocks block (ls1 ++ ls2) (x :: xs) (cs1 ++ cs2).
(** perhaps a block *)
Definition maybe {A} (block : list nline -> A -> list comment -> Prop) (ls : list nline) (x : option A) (cs : list comment) : Prop :=
  match x with Some a => block ls a cs | None => ls = [] /\ cs = [] end.

(** ** Backgrounds, examples, scenarios, rules, features *)
Section Blocks.
Variable d : dialect.

Definition background_block (ls : list nline) (x : background) (cs : list comment) : Prop :=
  exists l dl sl kw name desc steps cs1 cs2, ls = l :: dl ++ sl /\ title_line (d_background d) (snd l) kw name /\
    description_block d InBackground dl desc cs1 /\ blocks (step_block d) sl steps cs2 /\ cs = cs1 ++ cs2 /\
    x = mkBackground 0 (here l) (Some kw) (Some name) desc steps.

Definition examples_block (ls : list nline) (x : examples) (cs : list comment) : Prop :=
  exists tl l dl rl tags kw name desc rows cs0 cs1 cs2, ls = tl ++ l :: dl ++ rl /\ tags_block tl tags cs0 /\
    title_line (d_examples d) (snd l) kw name /\ description_block d InExamples dl desc cs1 /\
    maybe table_block rl rows cs2 /\ cs = cs0 ++ cs1 ++ cs2 /\
    x = mkExamples 0 tags (here l) (Some kw) (Some name) desc
          (match rows with Some (h :: _) => Some h | _ => None end) (match rows with Some (_ :: b) => b | _ => [] end).

Definition scenario_block (ls : list nline) (x : scenario) (cs : list comment) : Prop :=
  exists tl l dl sl el tags kw name desc steps exs cs0 cs1 cs2 cs3, ls = tl ++ l :: dl ++ sl ++ el /\ tags_block tl tags cs0 /\
    title_line (scenario_keywords d) (snd l) kw name /\ description_block d InScenario dl desc cs1 /\
    blocks (step_block d) sl steps cs2 /\ blocks examples_block el exs cs3 /\ cs = cs0 ++ cs1 ++ cs2 ++ cs3 /\
    x = mkScenario 0 tags (here l) (Some kw) (Some name) desc steps exs.

Definition rule_block (ls : list nline) (x : rule_ast) (cs : list comment) : Prop :=
  exists tl l dl bl sl tags kw name desc bg scs cs0 cs1 cs2 cs3, ls = tl ++ l :: dl ++ bl ++ sl /\ tags_block tl tags cs0 /\
    title_line (d_rule d) (snd l) kw name /\ description_block d InHeader dl desc cs1 /\
    maybe background_block bl bg cs2 /\ blocks scenario_block sl scs cs3 /\ cs = cs0 ++ cs1 ++ cs2 ++ cs3 /\
    x = mkRule 0 tags (here l) (Some kw) (Some name) desc bg scs.

(** a feature in the language called [lang] *)
Definition feature_block (lang : str) (ls : list nline) (x : feature) (cs : list comment) : Prop :=
  exists tl l dl bl sl rl tags kw name desc bg scs rus cs0 cs1 cs2 cs3 cs4, ls = tl ++ l :: dl ++ bl ++ sl ++ rl /\ tags_block tl tags cs0 /\
    title_line (d_feature d) (snd l) kw name /\ description_block d InHeader dl desc cs1 /\
    maybe background_block bl bg cs2 /\ blocks scenario_block sl scs cs3 /\ blocks rule_block rl rus cs4 /\
    cs = cs0 ++ cs1 ++ cs2 ++ cs3 ++ cs4 /\
    x = mkFeature tags (here l) (Some lang) (Some kw) (Some name) desc bg scs rus.
End Blocks.

(** ** Documents *)

(** blank lines and comments before the feature; none of them is a language header *)
Definition preamble (ls : list nline) (cs : list comment) : Prop :=
  noise_lines ls cs /\ Forall (fun l => forall name, ~ language_line (snd l) name) ls.
(** the lines stand for the document [doc], when [lang] is the default language *)
Definition stands_for (lang : str) (ls : list nline) (doc : gdoc) : Prop :=
  (* no feature *)
  (exists cs, preamble ls cs /\ doc = mkGdoc None cs) \/
  (* a feature in the default language *)
  (exists pre fl d f cs0 cs1, ls = pre ++ fl /\ preamble pre cs0 /\ for_name lang = Some d /\
     feature_block d lang fl f cs1 /\ doc = mkGdoc (Some f) (cs0 ++ cs1)) \/
  (* a language header and a feature in that language *)
  (exists pre h mid fl name d f cs0 cs1 cs2, ls = pre ++ h :: mid ++ fl /\ preamble pre cs0 /\
     language_line (snd h) name /\ for_name name = Some d /\ noise_lines mid cs1 /\
     feature_block d name fl f cs2 /\ doc = mkGdoc (Some f) (cs0 ++ cs1 ++ cs2)).
