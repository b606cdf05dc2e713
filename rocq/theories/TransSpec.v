(** * Specification: a Markdown text and the classic text it stands for (C68) *)
From Verif Require Import PyStr Types Line Matcher Ast DialectData LineSpec MdSpec.
Local Open Scope N_scope.

(** ** Lines *)

Inductive kind :=
| LBlank                 (* white space, or prose *)
| LRule_of_dashes        (* a row of dashes below a table header *)
| LTags
| LHead (k : tok)        (* a header with a keyword; the kind of its title line *)
| LStep
| LRow
| LOpen (q : bool) | LText (q : bool) | LClose (q : bool).   (* a doc string; true: quotes, false: backticks *)

Definition delimiter (q : bool) : str := if q then s """""""" else s "```".
(** after white space, the line begins with [p] *)
Definition begins (p x : str) : Prop := exists ind rest, all_space ind /\ x = ind ++ p ++ rest.

(** the keywords of the headers of kind [k] *)
Definition head_keywords (d : dialect) (k : tok) : list str :=
  match k with TkFeatureLine => d_feature d | _ => title_keywords d k end.

(** prose: no header with a keyword (a feature header counts as prose: only the first line can be one),
    no step, no tag, no table, no delimiter of a doc string *)
Definition prose (d : dialect) (x : str) : Prop :=
  (forall k, In k md_title_kinds -> forall kw name col, ~ header_line (title_keywords d k) x kw name col) /\
  (forall ind b gap rest kw, bullet_line x ind b gap rest -> In kw (all_step_keywords d) -> startswith kw rest = false) /\
  ~ has_md_tag x /\ ~ begins (s "|") x /\ ~ begins (s """""""") x /\ ~ begins (s "```") x.

Definition md_tags_text (l : list (str * str)) : str := flat_map (fun p => s "`@" ++ fst p ++ s "`" ++ snd p) l.
Definition classic_tags_text (l : list (str * str)) : str := flat_map (fun p => s "@" ++ fst p ++ s " ") l ++ [ch_nl].

(** [stands d k x y]: the Markdown line [x] is of kind [k]; the classic line for it is [y] *)
Inductive stands (d : dialect) : kind -> str -> str -> Prop :=
| sd_prose x : x <> [] -> one_line x -> prose d x -> stands d LBlank x [ch_nl]
| sd_dashes x n cells : one_line x -> ~ has_md_tag x -> begins (s "|") x ->
    table_cells (mkLine x n) = Ok cells -> (exists i, In i cells /\ separator_cell (i_text i)) ->
    stands d LRule_of_dashes x (s "#" ++ [ch_nl])
| sd_tags ind l : all_space ind -> l <> [] ->
    (forall name gap, In (name, gap) l -> tag_name_ok name /\ name <> [] /\ ~ In ch_btick name /\ all_space gap) ->
    one_line (ind ++ md_tags_text l) ->
    stands d LTags (ind ++ md_tags_text l) (classic_tags_text l)
| sd_head k ind h c kw rest e :
    In k (TkFeatureLine :: md_title_kinds) -> In kw (head_keywords d k) ->
    all_space ind -> (1 <= h <= 6)%nat -> is_space c = true -> c <> ch_nl -> ~ In ch_nl (ind ++ rest) -> line_end e ->
    ~ has_md_tag (ind ++ repeat ch_hash h ++ [c] ++ kw ++ s ":" ++ rest ++ e) ->
    stands d (LHead k) (ind ++ repeat ch_hash h ++ [c] ++ kw ++ s ":" ++ rest ++ e) (kw ++ s ":" ++ rest ++ e)
| sd_step x ind b gap rest kw :
    one_line x -> ~ has_md_tag x -> bullet_line x ind b gap rest ->
    In kw (all_step_keywords d) -> startswith kw rest = true ->
    stands d LStep x rest
| sd_row x n ind rest cells : one_line x -> ~ has_md_tag x -> all_space ind -> (length ind <= 5)%nat -> x = ind ++ s "|" ++ rest ->
    table_cells (mkLine x n) = Ok cells -> (forall i, In i cells -> ~ separator_cell (i_text i)) ->
    stands d LRow x x
| sd_open q x : begins (delimiter q) x -> ~ begins (s "````") x -> stands d (LOpen q) x x
| sd_text q x : x <> [] -> ~ begins (delimiter q) x -> stands d (LText q) x x
| sd_close q x : begins (delimiter q) x -> stands d (LClose q) x x.

(** ** Where which lines may be *)

Inductive place :=
| Start          (* before the feature header *)
| Top            (* after the header of a feature or a rule *)
| Ground         (* after the header of a background *)
| Body           (* after the header of a scenario *)
| Arg            (* after a step *)
| Used           (* after the argument of a step *)
| Table          (* after the header of examples *)
| Tagged         (* after tags *)
| Doc (q : bool).   (* in a doc string *)

Definition next (p : place) (k : kind) : option place :=
  match p, k with
  | Start, LTags => Some Start
  | Start, LHead TkFeatureLine => Some Top
  | Start, _ => None
  | Doc q, LText r => if Bool.eqb q r then Some (Doc q) else None
  | Doc q, LClose r => if Bool.eqb q r then Some Used else None
  | Doc _, _ => None
  | _, LBlank | _, LRule_of_dashes => Some p
  | _, LTags => Some Tagged
  | _, LHead TkRuleLine => Some Top
  | _, LHead TkScenarioLine => Some Body
  | Top, LHead TkBackgroundLine => Some Ground
  | (Top | Ground), LHead TkExamplesLine => None
  | _, LHead TkExamplesLine => Some Table
  | (Ground | Body | Arg | Used), LStep => Some Arg
  | (Arg | Used), LRow => Some Used
  | Table, LRow => Some Table
  | Arg, LOpen q => Some (Doc q)
  | _, _ => None
  end.

Inductive translation (d : dialect) : place -> list str -> list str -> Prop :=
| tn_end p : translation d p [] []
| tn_line p k p' x xs y ys : next p k = Some p' -> stands d k x y -> translation d p' xs ys ->
    translation d p (x :: xs) (y :: ys).

(** ** Documents with the same content

    The columns, the texts of the comments, and the type of a step whose keyword belongs to
    several groups are left out. *)
Definition line_only (l : location) : location := mkLoc (l_line l) None.
Definition plain_tag (t : tag) : tag := mkTag (tag_id t) (line_only (tag_loc t)) (tag_name t).
Definition plain_cell (c : cell) : cell := mkCell (line_only (cell_loc c)) (cell_value c).
Definition plain_row (r : row) : row := mkRow (row_id r) (line_only (row_loc r)) (map plain_cell (row_cells r)).
Definition plain_doc (d : docstring) : docstring := mkDoc (line_only (ds_loc d)) (ds_content d) (ds_delimiter d) (ds_media d).
Definition plain_table (t : datatable) : datatable := mkTable (line_only (dt_loc t)) (map plain_row (dt_rows t)).
Definition plain_arg (a : steparg) : steparg :=
  match a with ANone => ANone | ATable t => ATable (plain_table t) | ADoc d => ADoc (plain_doc d) end.
Definition plain_type (d : dialect) (kw : option str) (t : option ktype) : option ktype :=
  match kw with Some k => match step_type d k with KtUnknown => None | _ => t end | None => None end.
Definition plain_step (d : dialect) (x : step) : step :=
  mkStep (st_id x) (line_only (st_loc x)) (st_keyword x) (plain_type d (st_keyword x) (st_ktype x)) (st_text x) (plain_arg (st_arg x)).
Definition plain_background (d : dialect) (x : background) : background :=
  mkBackground (bg_id x) (line_only (bg_loc x)) (bg_keyword x) (bg_name x) (bg_desc x) (map (plain_step d) (bg_steps x)).
Definition plain_examples (x : examples) : examples :=
  mkExamples (ex_id x) (map plain_tag (ex_tags x)) (line_only (ex_loc x)) (ex_keyword x) (ex_name x) (ex_desc x)
    (option_map plain_row (ex_header x)) (map plain_row (ex_body x)).
Definition plain_scenario (d : dialect) (x : scenario) : scenario :=
  mkScenario (sc_id x) (map plain_tag (sc_tags x)) (line_only (sc_loc x)) (sc_keyword x) (sc_name x) (sc_desc x)
    (map (plain_step d) (sc_steps x)) (map plain_examples (sc_examples x)).
Definition plain_rule (d : dialect) (x : rule_ast) : rule_ast :=
  mkRule (ru_id x) (map plain_tag (ru_tags x)) (line_only (ru_loc x)) (ru_keyword x) (ru_name x) (ru_desc x)
    (option_map (plain_background d) (ru_background x)) (map (plain_scenario d) (ru_scenarios x)).
Definition plain_feature (d : dialect) (x : feature) : feature :=
  mkFeature (map plain_tag (fe_tags x)) (line_only (fe_loc x)) (fe_language x) (fe_keyword x) (fe_name x) (fe_desc x)
    (option_map (plain_background d) (fe_background x)) (map (plain_scenario d) (fe_scenarios x)) (map (plain_rule d) (fe_rules x)).
Definition plain_comment (c : comment) : comment := mkComment (line_only (cm_loc c)) None.
Definition plain_document (d : dialect) (x : gdoc) : gdoc :=
  mkGdoc (option_map (plain_feature d) (gd_feature x)) (map plain_comment (gd_comments x)).
